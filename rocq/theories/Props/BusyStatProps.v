(** C178: the statistics of a dataset, computed while it is written to. *)
From Verif.Base Require Import GoBase GoLemmas Assoc Float.
From Verif.Model Require Import Codec Store StoreConc Data Vector Search Sync ScanConc.
From Verif.Spec Require Import Wire StoreSpec StoreConcSpec RenewSpec LinearSpec.
From Verif.Proof Require Import CodecP CodecTop StoreP StoreQ StoreConcP FloatP SyncP SyncQ SyncB SyncStat.
From Verif.Props Require Import StoreProps StoreConcProps ScanProps LinearProps.
From Coq Require Import Lia.
Open Scope N_scope.

Lemma visited_fold : forall M E vs, ScanVisited M E vs = scan_fold M E (map (pair []) vs) scan0.
Proof.
  intros M E vs. unfold ScanVisited, scan_fold. generalize scan0. induction vs as [|e vs IH]; intro s; cbn [map fold_left snd]; auto.
Qed.

(** If nothing else runs, it is the scan of Model/Sync.v. *)
Theorem C178_alone : forall M E tick order m,
  ScanVisited M E (map snd (live_of tick order)) = snd (fst (LoopDBMap tick (scan_entry M E) order m scan0)).
Proof.
  intros M E tick order m. rewrite loop_scan. cbn [fst snd]. unfold ScanVisited. generalize (live_of tick order) as l. generalize scan0 as s.
  intros s l. revert s. induction l as [|p l IH]; intro s; cbn [map fold_left]; auto.
Qed.
Print Assumptions C178_alone.

(** C178.  The count is the number of keys visited: no key twice, only keys that were there at
    some moment of the scan, and all keys that were there throughout.  So it is at least the
    number of the latter.  The largest distance is that of one of these keys, or zero, and no
    key visited is further away. *)
Theorem C178_statistics : forall T s0 tr1 s1 tr2 s2 j ys M E vs,
  begins T s0 -> cexec s0 tr1 s1 -> cexec s1 tr2 s2 -> (c_now s2 <= T)%Z ->
  nth_error (c_threads s1) j = Some TScan -> nth_error (c_threads s2) j = Some (TScanDone ys) ->
  map edatum vs = ys -> blen ys < M64 ->
  exists es1 es2 ks, explained s0 es1 s1 /\ explained s0 (es1 ++ es2) s2 /\
    NoDup ks /\ sN (ScanVisited M E vs) = blen ks /\
    (forall k, In k ks -> exists p r, es2 = p ++ r /\ key_after s0 (es1 ++ p) k) /\
    (forall k, key_ok k -> key_fits k -> (forall p r, es2 = p ++ r -> key_after s0 (es1 ++ p) k) -> In k ks) /\
    (forall l, NoDup l ->
       (forall k, In k l -> key_ok k /\ key_fits k /\ forall p r, es2 = p ++ r -> key_after s0 (es1 ++ p) k) ->
       blen l <= sN (ScanVisited M E vs)) /\
    (let b := sMax (ScanVisited M E vs) in
     is_nan b = false /\ (b = fzero \/ exists k, In k ks /\ b = VectorDistance M (eAvg E) (vec k)) /\
     forall k, In k ks -> fgtb (VectorDistance M (eAvg E) (vec k)) b = false).
Proof.
  intros T s0 tr1 s1 tr2 s2 j ys M E vs B E1 E2 HT J1 J2 MV LY.
  assert (CO : calls_ok s0).
  { destruct B as (W & F & _ & TH). split; [exact W|]. split; [exact F|]. rewrite Forall_forall in *. intros t X. specialize (TH t X).
    destruct t; cbn [caller]; try exact TH; apply TH. }
  destruct (C147_live s0 tr1 s1 j tr2 s2 ys CO E1 J1 E2 J2) as (ND & LV).
  assert (KV : forall d, In d ys -> exists k v, d = kv k v).
  { intros d D. destruct (LV d D) as (_ & _ & s & _ & _ & _ & k & v & _ & -> & _). eauto. }
  destruct (C176_scans T s0 tr1 s1 tr2 s2 j ys B E1 E2 HT J1 J2) as (es1 & es2 & X1 & X2 & SO & CM).
  assert (KS : exists ks, map dkey ys = map Some ks).
  { clear -KV. induction ys as [|d ys IH]; [exists []; reflexivity|]. destruct (KV d (or_introl eq_refl)) as (k & v & ->).
    destruct IH as (ks & Q); [intros d D; apply KV; right; exact D|]. exists (k :: ks). cbn [map]. rewrite Q. reflexivity. }
  destruct KS as (ks & KS).
  assert (IK : forall k, In k ks <-> exists v, In (kv k v) ys).
  { intro k. split.
    - intro X. apply (in_map Some) in X. rewrite <- KS in X. apply in_map_iff in X. destruct X as (d & Q & D).
      destruct (KV d D) as (k' & v & ->). injection Q as ->. eauto.
    - intros (v & X). apply (in_map dkey) in X. rewrite KS in X. apply in_map_iff in X. destruct X as (k' & Q & X). injection Q as ->. exact X. }
  assert (NK : NoDup ks) by (rewrite KS in ND; exact (NoDup_map_inv _ _ ND)).
  assert (LK : length ys = length ks) by (rewrite <- (map_length dkey ys), KS, map_length; reflexivity).
  assert (CN : sN (ScanVisited M E vs) = blen ks).
  { rewrite visited_fold, scan_fold_n by reflexivity. unfold blen in *. rewrite map_length, <- LK, <- MV, map_length.
    rewrite <- MV, map_length in LY. cbn [sN scan0]. unfold u64. rewrite N.add_0_l. apply N.mod_small. exact LY. }
  assert (AL : forall k, key_ok k -> key_fits k -> (forall p r, es2 = p ++ r -> key_after s0 (es1 ++ p) k) -> In k ks).
  { intros k K1 K2 A. apply IK. exact (CM k K1 K2 A). }
  exists es1, es2, ks. split; [exact X1|]. split; [exact X2|]. split; [exact NK|]. split; [exact CN|]. split; [|split; [exact AL|split]].
  - intros k X. apply IK in X. destruct X as (v & X). destruct (SO _ X) as (p & r & Q & TA). exists p, r. split; [exact Q|]. exists v. exact TA.
  - intros l Nl A. rewrite CN. unfold blen. enough (length l <= length ks)%nat by lia. apply NoDup_incl_length; [exact Nl|].
    intros k X. destruct (A k X) as (K1 & K2 & K3). auto.
  - cbv zeta. rewrite visited_fold.
    assert (DI : forall x, In x (map (dist M E) (map (pair []) vs)) <-> exists k, In k ks /\ x = VectorDistance M (eAvg E) (vec k)).
    { intro x. rewrite map_map. unfold dist. cbn [snd]. rewrite <- (map_map edatum (fun d => VectorDistance M (eAvg E) (features d))), MV, in_map_iff. split.
      - intros (d & <- & D). destruct (KV d D) as (k & v & ->). exists k. split; [apply IK; eauto|reflexivity].
      - intros (k & X & ->). apply IK in X. destruct X as (v & X). exists (kv k v). split; [reflexivity|exact X]. }
    destruct (max_fold M E (map (pair []) vs) scan0 eq_refl) as (B0 & B1 & _ & B3). split; [exact B0|]. split.
    + destruct B1 as [B1|B1]; [left; exact B1|right; apply DI; exact B1].
    + intros k X. apply B3. apply DI. eauto.
Qed.
Print Assumptions C178_statistics.

(** No key is offered twice if none is visited twice. *)
Lemma offered_once : forall M E vs s,
  NoDup (map (fun x : Datum * InsertConfig => dkey (fst x)) (sOut s) ++ map dkey (map edatum vs)) ->
  NoDup (map (fun x => dkey (fst x)) (sOut (fold_left (fun s e => fst (scan_entry M E s e)) vs s))).
Proof.
  intros M E. induction vs as [|e vs IH]; intros s H; cbn [map fold_left] in *; [rewrite app_nil_r in H; exact H|].
  apply IH. unfold scan_entry. cbv zeta.
  destruct (negb (eAlive E) || _); [destruct (10 <? _)|]; cbn [fst sOut]; try exact (NoDup_remove_1 _ _ _ H).
  rewrite map_app, <- app_assoc. exact H.
Qed.

(** What such a scan offers to other nodes was there at some moment of the scan; no key is offered
    twice; everything offered has more than ten seconds left; and a dataset that is not being
    closed offers at most as many as the quotas add up to. *)
Theorem C178_offers : forall T s0 tr1 s1 tr2 s2 j ys M E vs,
  begins T s0 -> cexec s0 tr1 s1 -> cexec s1 tr2 s2 -> (c_now s2 <= T)%Z ->
  nth_error (c_threads s1) j = Some TScan -> nth_error (c_threads s2) j = Some (TScanDone ys) ->
  map edatum vs = ys ->
  exists es1 es2, explained s0 es1 s1 /\ explained s0 (es1 ++ es2) s2 /\
    (forall d c, In (d, c) (sOut (ScanVisited M E vs)) ->
       10 < TTL c /\ exists p r, es2 = p ++ r /\ there_after s0 (es1 ++ p) d) /\
    NoDup (map (fun x => dkey (fst x)) (sOut (ScanVisited M E vs))) /\
    (eAlive E = true -> eLimit E < M64 -> blen (sOut (ScanVisited M E vs)) <= eLimit E).
Proof.
  intros T s0 tr1 s1 tr2 s2 j ys M E vs B E1 E2 HT J1 J2 MV.
  assert (CO : calls_ok s0).
  { destruct B as (W & F & _ & TH). split; [exact W|]. split; [exact F|]. rewrite Forall_forall in *. intros t X. specialize (TH t X).
    destruct t; cbn [caller]; try exact TH; apply TH. }
  destruct (C147_live s0 tr1 s1 j tr2 s2 ys CO E1 J1 E2 J2) as (ND & _).
  destruct (C176_scans T s0 tr1 s1 tr2 s2 j ys B E1 E2 HT J1 J2) as (es1 & es2 & X1 & X2 & SO & _).
  exists es1, es2. split; [exact X1|]. split; [exact X2|]. split; [|split].
  - intros d c X. rewrite visited_fold in X. apply fold_out in X. destruct X as [[]|(b & e & IN & -> & L & _)]. split; [exact L|].
    apply SO. rewrite <- MV. apply in_map. apply in_map_iff in IN. destruct IN as (e' & Q & IN). injection Q as _ ->. exact IN.
  - unfold ScanVisited. apply offered_once. cbn [scan0 sOut map app]. rewrite MV. exact ND.
  - intros AL LL. rewrite visited_fold.
    destruct (scan_bounded M E (map (pair []) vs) scan0 AL LL eq_refl) as (Q & R); [cbn; lia|]. rewrite <- Q. exact R.
Qed.
Print Assumptions C178_offers.

(** A dataset that is being closed offers every key that was there throughout the scan, if what was
    read of it has more than ten seconds left. *)
Theorem C178_closing : forall T s0 tr1 s1 tr2 s2 j ys M E vs,
  begins T s0 -> cexec s0 tr1 s1 -> cexec s1 tr2 s2 -> (c_now s2 <= T)%Z ->
  nth_error (c_threads s1) j = Some TScan -> nth_error (c_threads s2) j = Some (TScanDone ys) ->
  map edatum vs = ys -> eAlive E = false ->
  exists es1 es2, explained s0 es1 s1 /\ explained s0 (es1 ++ es2) s2 /\
    forall k, key_ok k -> key_fits k -> (forall p r, es2 = p ++ r -> key_after s0 (es1 ++ p) k) ->
      exists e v, In e vs /\ edatum e = kv k v /\
        ((forall n, 10 < TTL (InsertConfigFromExpireAt (eClock E n) (u64_of_i64 (exprireAt e)))) ->
         exists c, In (kv k v, c) (sOut (ScanVisited M E vs))).
Proof.
  intros T s0 tr1 s1 tr2 s2 j ys M E vs B E1 E2 HT J1 J2 MV AL.
  destruct (C176_scans T s0 tr1 s1 tr2 s2 j ys B E1 E2 HT J1 J2) as (es1 & es2 & X1 & X2 & _ & CM).
  exists es1, es2. split; [exact X1|]. split; [exact X2|]. intros k K1 K2 A. destruct (CM k K1 K2 A) as (v & X).
  rewrite <- MV in X. apply in_map_iff in X. destruct X as (e & D & X). exists e, v. split; [exact X|]. split; [exact D|].
  intro TT. rewrite visited_fold, <- D. apply (proj2 (stream_all M E (map (pair []) vs) scan0 (or_introl AL)) []); [|exact TT].
  apply in_map. exact X.
Qed.
Print Assumptions C178_closing.

(** The run of C176_instance_scan as the scan of Process. *)
Example C178_instance : begins 200 s_scanned /\
  (exists tr s, cexec s_scanned tr s /\ (c_now s <= 200)%Z /\
    nth_error (c_threads s_scanned) 1 = Some TScan /\ nth_error (c_threads s) 1 = Some (TScanDone [kv ka vb])) /\
  map edatum [mkEntry 150 (kv ka vb)] = [kv ka vb] /\ blen [kv ka vb] < M64 /\
  forall M E, sN (ScanVisited M E [mkEntry 150 (kv ka vb)]) = 1.
Proof.
  destruct C176_instance_scan as (A & tr & s & ys & X & H & J1 & J2 & -> & _). split; [exact A|].
  split; [exists tr, s; auto|]. split; [reflexivity|]. split; [reflexivity|].
  intros M E. rewrite visited_fold, scan_fold_n; reflexivity.
Qed.

(** A dataset being closed offers what it visits. *)
Example C178_instance_offers : forall M, let E := mkSenv [] fzero (f32_of_Z 1) false 0 fzero (fun _ => fzero) (fun _ => 100) 0 in
  map (fun x => (fst x, TTL (snd x))) (sOut (ScanVisited M E [mkEntry 150 (kv ka vb)])) = [(kv ka vb, 50)].
Proof. intros M E. unfold ScanVisited, scan_entry, E. cbn [fold_left fst eAlive negb orb]. reflexivity. Qed.
