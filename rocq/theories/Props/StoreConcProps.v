(** Property C17: concurrent inserts are not lost. *)
From Verif.Base Require Import GoBase GoLemmas Assoc.
From Verif.Model Require Import Codec Store StoreConc.
From Verif.Spec Require Import Wire StoreSpec StoreConcSpec.
From Verif.Proof Require Import CodecP CodecTop StoreP StoreQ StoreConcP.
From Verif.Props Require Import StoreProps.
Open Scope N_scope.

(** C17, for keys nobody deletes and that do not expire during the run: in every
    interleaving of any number of inserts, deletes (of other keys) and scans, an
    insert that returned took effect at one of its own steps; the store holds
    the value of the last insert that took effect; and a scan that begins after
    that yields the key, with the value it had at some moment since.  Missing:
    keys with an entry that expires during the run, see C17_lost_insert_refuted. *)
Theorem C17_no_lost_insert_partial : forall T k s0 tr s,
  key_ok k -> key_fits k -> start_ok T k s0 ->
  cexec s0 tr s -> (c_now s <= T)%Z ->
  (forall i v e, nth_error (c_threads s) i = Some (TInsDone k v e) -> In (LInsert i k v) tr) /\
  (forall v, last_insert tr k = Some v ->
     exists e, mload (c_map s) (wire_key k) = Some e /\ edatum e = kv k v) /\
  (forall j tr' s' ys, last_insert tr k <> None ->
     nth_error (c_threads s) j = Some TScan ->
     cexec s tr' s' -> (c_now s' <= T)%Z ->
     nth_error (c_threads s') j = Some (TScanDone ys) ->
     exists v p q, tr' = p ++ q /\ last_insert (tr ++ p) k = Some v /\ In (kv k v) ys).
Proof.
  intros T k s0 tr s K1 K2 S0 E HT.
  pose proof (exec_cinv (c_now s0) T k K1 K2 _ _ _ E (start_cinv (c_now s0) T k s0 eq_refl S0)) as I.
  destruct (I HT) as (_ & M & TH & L & D). split; [|split].
  - intros i v e Hi. apply D. left. eauto.
  - exact L.
  - intros j tr' s' ys HL Hj E' HT' Hy.
    destruct (scan_exec (c_now s0) T k K1 K2 _ _ _ E' tr j TScan I HT' HL Hj Logic.I) as (t' & A & B & _).
    rewrite Hy in A. injection A as <-. exact B.
Qed.
Print Assumptions C17_no_lost_insert_partial.

(** Runs can be built from the front. *)
Lemma ce_cons : forall s l s' tr s'', cstep s l s' -> cexec s' tr s'' -> cexec s (l :: tr) s''.
Proof.
  intros s l s' tr s'' S E. induction E as [s'|s' tr t l' t' E IH S'].
  - apply (ce_snoc s [] s); [constructor|auto].
  - rewrite app_comm_cons. econstructor; eauto.
Qed.

Lemma st_ins_load' : forall now m ts i k v exp ts' l,
  nth_error ts i = Some (TInsTimed k v exp) ->
  list_set ts i (TInsLoaded k v exp (is_fresh k v exp (mload m (ekey k)))) = Some ts' ->
  l = (if is_fresh k v exp (mload m (ekey k)) then LNone else LInsert i k v) ->
  cstep (mkC now m ts) l (mkC now m ts').
Proof. intros. subst l. eapply st_ins_load; eauto. Qed.

(** An instance: two inserts of the same key race (both read the clock and load
    before either stores), a third goroutine deletes another key, then a scan. *)
Definition s_race : cstate :=
  mkC 100 [] [TIns ka va None; TIns ka vb (Some (mkInsertConfig 500 0)); TDel kb; TScan].

Example C17_instance : start_ok 200 ka s_race /\
  exists tr s tr' s', cexec s_race tr s /\ last_insert tr ka = Some va /\
    nth_error (c_threads s) 1 = Some (TInsDone ka vb 600) /\
    nth_error (c_threads s) 3 = Some TScan /\
    cexec s tr' s' /\ nth_error (c_threads s') 3 = Some (TScanDone [kv ka va]).
Proof.
  destruct kva_ok as (A & B & C). split.
  - split; [constructor|]. split; [constructor|]. split; [intros e H; discriminate|].
    constructor; [|constructor; [|constructor; [|constructor; [|constructor]]]].
    + split; [exact A|]. intros _ now Hn. left. reflexivity.
    + split; [exact B|]. intros _ now Hn. cbn [c_now s_race] in Hn. right. unfold expireAtOf.
      cbn [TTL N.eqb Pos.eqb]. change (i64_of_u64 500) with 500%Z. rewrite i64_id; [lia|unfold is_i64; lia].
    + split; [apply C|]. split; [apply C|]. discriminate.
    + exact Logic.I.
  - exists [LNone; LNone; LNone; LNone; LInsert 1 ka vb; LInsert 0 ka va; LNone],
      (mkC 100 [(wire_key ka, mkEntry 0 (kv ka va))]
         [TInsDone ka va 0; TInsDone ka vb 600; TDelDone kb; TScan]),
      [LNone; LNone; LNone],
      (mkC 100 [(wire_key ka, mkEntry 0 (kv ka va))]
         [TInsDone ka va 0; TInsDone ka vb 600; TDelDone kb; TScanDone [kv ka va]]).
    split; [|split; [vm_compute; reflexivity|split; [reflexivity|split; [reflexivity|split; [|reflexivity]]]]].
    + eapply ce_cons; [eapply (st_ins_time 100 _ _ 0 ka va _ _); reflexivity|].
      eapply ce_cons; [eapply (st_ins_time 100 _ _ 1 ka vb _ _); reflexivity|].
      eapply ce_cons; [eapply (st_ins_load' 100 _ _ 0 ka va 0); reflexivity|].
      eapply ce_cons; [eapply (st_ins_load' 100 _ _ 1 ka vb 600); reflexivity|].
      eapply ce_cons; [eapply (st_ins_store 100 _ _ 1 ka vb 600); reflexivity|].
      eapply ce_cons; [eapply (st_ins_store 100 _ _ 0 ka va 0); reflexivity|].
      eapply ce_cons; [eapply (st_del 100 _ _ 2 kb _); reflexivity|].
      constructor.
    + eapply ce_cons; [eapply (st_scan_start 100 _ _ 3 [wire_key ka] _); first [reflexivity|apply Permutation_refl]|].
      eapply ce_cons; [eapply (st_scan_live 100 _ _ 3 (wire_key ka) [] [] (mkEntry 0 (kv ka va)) _); reflexivity|].
      eapply ce_cons; [eapply (st_scan_end 100 _ _ 3 _ _); reflexivity|].
      constructor.
Qed.

(** C17 refuted for keys with an expiring entry: a scan reads the expired entry
    of ka, an insert of ka with a TTL of 900 seconds stores its entry and
    returns success, and the scan then deletes it.  Nobody deletes ka, the clock
    never moves, and the inserted entry has 900 seconds left. *)
Definition s_lost : cstate :=
  mkC 100 [(wire_key ka, mkEntry 100 (kv ka va))]
    [TIns ka vb (Some (mkInsertConfig 900 0)); TScan].

Theorem C17_lost_insert_refuted :
  exists s0 tr s k v e, cexec s0 tr s /\ mwf (c_map s0) /\ Forall slot_wf (c_map s0) /\
    (forall t, In t (c_threads s0) -> t = TIns k v (Some (mkInsertConfig 900 0)) \/ t = TScan) /\
    nth_error (c_threads s) 0 = Some (TInsDone k v e) /\
    In (LInsert 0 k v) tr /\ (c_now s < e)%Z /\
    mload (c_map s) (wire_key k) = None.
Proof.
  destruct kva_ok as (A & B & C).
  exists s_lost, [LNone; LNone; LNone; LNone; LInsert 0 ka vb; LNone],
    (mkC 100 [] [TInsDone ka vb 1000; TScanning [] None []]), ka, vb, 1000%Z.
  split; [|split; [|split; [|split; [|split; [|split; [|split]]]]]].
  - eapply ce_cons; [eapply (st_scan_start 100 _ _ 1 [wire_key ka] _); first [reflexivity|apply Permutation_refl]|].
    eapply ce_cons; [eapply (st_scan_dead 100 _ _ 1 (wire_key ka) [] [] (mkEntry 100 (kv ka va)) _); reflexivity|].
    eapply ce_cons; [eapply (st_ins_time 100 _ _ 0 ka vb _ _); reflexivity|].
    eapply ce_cons; [eapply (st_ins_load' 100 _ _ 0 ka vb 1000); reflexivity|].
    eapply ce_cons; [eapply (st_ins_store 100 [(wire_key ka, mkEntry 100 (kv ka va))] _ 0 ka vb 1000); reflexivity|].
    eapply ce_cons; [eapply (st_scan_purge 100 [(wire_key ka, mkEntry 1000 (kv ka vb))] _ 1 (wire_key ka) [] [] _); reflexivity|].
    constructor.
  - repeat constructor; intros [].
  - repeat constructor. exists ka, va. split; [exact A|]. split; reflexivity.
  - intros t [<-|[<-|[]]]; auto.
  - reflexivity.
  - cbn. auto 8.
  - reflexivity.
  - reflexivity.
Qed.
Print Assumptions C17_lost_insert_refuted.
