(** C126: exactly when a stored datum can be lost to a concurrent scan. *)
From Verif.Base Require Import GoBase GoLemmas Assoc.
From Verif.Model Require Import Codec Store StoreConc.
From Verif.Spec Require Import Wire StoreSpec StoreConcSpec.
From Verif.Proof Require Import CodecP CodecTop StoreP StoreQ StoreConcP.
From Verif.Props Require Import StoreProps StoreConcProps.
Open Scope N_scope.

(** A goroutine in the middle of any operation: nobody is about to delete k by
    a request, and no insert of k under way expires by T. *)
Definition under_way (T0 T : Z) (k : DatumKey) (t : thread) : Prop :=
  match t with
  | TIns k' v cfg => kv_ok k' v /\
      (k' = k -> forall now, (T0 <= now <= T)%Z -> no_expiry T (expireAtOf now cfg))
  | TInsTimed k' v e => kv_ok k' v /\ (k' = k -> no_expiry T e)
  | TInsLoaded k' v e _ => kv_ok k' v /\ (k' = k -> no_expiry T e)
  | TInsDone k' v _ => kv_ok k' v
  | TDel k' => key_ok k' /\ key_fits k' /\ k' <> k
  | TDelDone _ => True
  | TScan => True
  | TScanning _ _ _ => True
  | TScanDone _ => True
  end.

(** A scan that has read an entry of k as expired and has not deleted it yet. *)
Definition about_to_delete (k : DatumKey) (t : thread) : Prop :=
  exists todo ys, t = TScanning todo (Some (wire_key k)) ys.

Definition bytes_dec : forall a b : bytes, {a = b} + {a <> b} := list_eq_dec N.eq_dec.

Lemma armed_dec : forall k ts, (exists t, In t ts /\ about_to_delete k t) \/
  (forall t, In t ts -> ~ about_to_delete k t).
Proof.
  intros k ts. induction ts as [|t ts IH]; [right; intros t []|].
  assert (D : about_to_delete k t \/ ~ about_to_delete k t).
  { destruct t as [ | | | | | | |todo p ys| ]; try (right; intros (a & b & E); discriminate).
    destruct p as [b|]; [|right; intros (x & y & E); discriminate].
    destruct (bytes_dec b (wire_key k)) as [->|N]; [left; exists todo, ys; auto|].
    right. intros (x & y & E). injection E as _ E _. auto. }
  destruct D as [D|D]; [left; exists t; cbn; auto|].
  destruct IH as [(t' & A & B)|IH]; [left; exists t'; cbn; auto|].
  right. intros t' [<-|H]; auto.
Qed.

Definition past_inserts (k : DatumKey) (ts : list thread) : list label :=
  map (fun it => match snd it with
                 | TInsDone _ v _ | TInsLoaded _ v _ _ => LInsert (fst it) k v
                 | _ => LNone end) (combine (seq 0 (length ts)) ts).

Lemma past_in : forall k ts i t v, nth_error ts i = Some t ->
  ((exists e, t = TInsDone k v e) \/ (exists e, t = TInsLoaded k v e false)) ->
  In (LInsert i k v) (past_inserts k ts).
Proof.
  intros k ts i t v N H. unfold past_inserts. apply in_map_iff. exists (i, t). split.
  - cbn. destruct H as [(e & ->)|(e & ->)]; reflexivity.
  - apply (nth_error_In _ i). rewrite (nth_error_nth' _ (0%nat, t)).
    + f_equal. rewrite combine_nth by (rewrite seq_length; reflexivity).
      rewrite seq_nth by (apply nth_error_Some; congruence). cbn. f_equal.
      apply nth_error_nth. auto.
    + rewrite combine_length, seq_length, Nat.min_id. apply nth_error_Some. congruence.
Qed.

Lemma stays : forall T k s v e, key_ok k -> key_fits k ->
  mwf (c_map s) -> Forall slot_wf (c_map s) ->
  mload (c_map s) (wire_key k) = Some e -> edatum e = kv k v -> no_expiry T (exprireAt e) ->
  Forall (under_way (c_now s) T k) (c_threads s) ->
  (forall t, In t (c_threads s) -> ~ about_to_delete k t) ->
  forall tr s', cexec s tr s' -> (c_now s' <= T)%Z ->
  exists e', mload (c_map s') (wire_key k) = Some e' /\
    edatum e' = kv k (match last_insert tr k with Some v' => v' | None => v end).
Proof.
  intros T k s v e K1 K2 W F L De X TH NA tr s' E HT.
  pose (tr0 := past_inserts k (c_threads s) ++ [LInsert 0 k v]).
  assert (LI : forall tr1 tr2, last_insert (tr1 ++ tr2) k =
            match last_insert tr2 k with Some v' => Some v' | None => last_insert tr1 k end).
  { intros tr1 tr2. induction tr2 as [|l tr2 IH] using rev_ind.
    - rewrite app_nil_r. reflexivity.
    - rewrite app_assoc, !last_insert_snoc. destruct l as [|i k' v']; auto.
      destruct (DatumKey_eq_dec k' k); auto. }
  assert (L0 : last_insert tr0 k = Some v).
  { unfold tr0. rewrite last_insert_snoc. destruct (DatumKey_eq_dec k k); [auto|contradiction]. }
  assert (I0 : cinv (c_now s) T k tr0 s).
  { intros _. split; [lia|]. split; [|split; [|split]].
    - split; [auto|]. split; [auto|]. intros e0 Le0. rewrite L in Le0. injection Le0 as <-. exact X.
    - rewrite Forall_forall in *. intros t Ht. specialize (TH t Ht). specialize (NA t Ht).
      destruct t as [ | | | | | | |todo p ys| ]; cbn in *; auto.
      intros ->. apply NA. exists todo, ys. auto.
    - intros v0 Hv0. rewrite L0 in Hv0. injection Hv0 as <-. eauto.
    - intros i v0 Hi. unfold tr0. apply in_or_app. left.
      destruct Hi as [(e0 & N)|(e0 & N)]; eapply past_in; eauto. }
  assert (I1 : cinv (c_now s) T k (tr0 ++ tr) s').
  { clear HT. revert I0. induction E as [s|s tr s' l s'' E IH S]; intros I0.
    - rewrite app_nil_r. auto.
    - rewrite app_assoc. eapply step_cinv; [exact K1|exact K2| |exact S].
      apply IH; auto. }
  destruct (I1 HT) as (_ & _ & _ & LN & _).
  destruct (LN (match last_insert tr k with Some v' => v' | None => v end)) as (e' & A & B).
  - rewrite LI, L0. destruct (last_insert tr k); auto.
  - eauto.
Qed.

(** A stored datum that does not expire before T, and that nobody deletes, can be
    missing at some moment before T exactly if at this moment a scan is between
    reading an expired earlier entry of its key and deleting it. *)
Theorem C126_lost : forall T k s e, key_ok k -> key_fits k ->
  mwf (c_map s) -> Forall slot_wf (c_map s) ->
  mload (c_map s) (wire_key k) = Some e -> no_expiry T (exprireAt e) -> (c_now s <= T)%Z ->
  Forall (under_way (c_now s) T k) (c_threads s) ->
  ((exists tr s', cexec s tr s' /\ (c_now s' <= T)%Z /\ mload (c_map s') (wire_key k) = None) <->
   (exists t, In t (c_threads s) /\ about_to_delete k t)).
Proof.
  intros T k s e K1 K2 W F L X HT TH. split.
  - intros (tr & s' & E & HT' & M). destruct (armed_dec k (c_threads s)) as [A|NA]; auto. exfalso.
    destruct (slot_val (c_map s) k e F K1 K2 L) as (v & _ & De).
    destruct (stays T k s v e K1 K2 W F L De X TH NA tr s' E HT') as (e' & A & _). congruence.
  - intros (t & Ht & todo & ys & ->). apply In_nth_error in Ht. destruct Ht as (i & N).
    destruct s as [now m ts]. cbn [c_now c_map c_threads] in *.
    assert (S : exists ts', list_set ts i (TScanning todo None ys) = Some ts').
    { clear -N. revert i N. induction ts as [|t ts IH]; intros [|i] N; cbn in *; try discriminate; eauto.
      destruct (IH i N) as (ts' & ->). eauto. }
    destruct S as (ts' & S).
    exists [LNone], (mkC now (mdelete m (wire_key k)) ts'). split; [|split; [exact HT|]].
    + eapply ce_cons; [eapply st_scan_purge; eauto|constructor].
    + cbn. apply mload_mdelete_same.
Qed.
Print Assumptions C126_lost.

(** If there is no such scan, the key is there until T, whatever runs, with the
    value of the last insert that took effect. *)
Theorem C126_kept : forall T k v s e, key_ok k -> key_fits k ->
  mwf (c_map s) -> Forall slot_wf (c_map s) ->
  mload (c_map s) (wire_key k) = Some e -> edatum e = kv k v -> no_expiry T (exprireAt e) ->
  Forall (under_way (c_now s) T k) (c_threads s) ->
  (forall t, In t (c_threads s) -> ~ about_to_delete k t) ->
  forall tr s', cexec s tr s' -> (c_now s' <= T)%Z ->
  exists e', mload (c_map s') (wire_key k) = Some e' /\
    edatum e' = kv k (match last_insert tr k with Some v' => v' | None => v end).
Proof. intros T k v s e. apply (stays T k s v e). Qed.
Print Assumptions C126_kept.

(** The moment before the loss in C17_lost_insert_refuted, and the same moment
    with a scan that has not reached the key. *)
Example C126_instance :
  let m := [(wire_key ka, mkEntry 1000 (kv ka vb))] in
  mwf m /\ Forall slot_wf m /\
  Forall (under_way 100 200 ka) [TInsDone ka vb 1000; TScanning [] (Some (wire_key ka)) []] /\
  about_to_delete ka (TScanning [] (Some (wire_key ka)) []) /\
  ~ about_to_delete ka (TScanning [wire_key ka] None []).
Proof.
  destruct kva_ok as (A & B & C). cbv zeta. split; [repeat constructor; intros []|].
  split; [repeat constructor; exists ka, vb; auto|].
  split; [repeat constructor; apply B|].
  split; [exists [], []; reflexivity|]. intros (x & y & E). discriminate.
Qed.
