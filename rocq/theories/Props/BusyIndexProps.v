(** C179: the approximate index of a dataset, built while the dataset is written to. *)
From Verif.Base Require Import GoBase GoLemmas Assoc Float GoSort.
From Verif.Model Require Import Codec Store StoreConc Data Vector Search Sync Annoy ScanConc.
From Verif.Spec Require Import Wire StoreSpec StoreConcSpec RenewSpec LinearSpec AnnoySpec.
From Verif.Proof Require Import CodecP CodecTop StoreP StoreQ StoreConcP FloatP AnnoyP.
From Verif.Props Require Import StoreProps StoreConcProps ScanProps LinearProps.
From Verif.Props Require AnnoyProps.
From Coq Require Import Lia.
Open Scope N_scope.

(** If nothing else runs, it is the scan of Model/Annoy.v. *)
Theorem C179_alone : forall alive N0 tick order m,
  IndexVisited alive N0 (visited tick order) = index_scan alive N0 tick order m.
Proof. intros. rewrite index_scan_fold. reflexivity. Qed.
Print Assumptions C179_alone.

Lemma collected : forall ex score config fq index ids n l x,
  annoy_collect ex score config fq index ids n = Ok l -> In x l -> In (Some (sDatum x)) index.
Proof.
  intros ex score config fq index. induction ids as [|i ids IH]; intros n l x H X; cbn [annoy_collect] in H.
  - injection H as <-. destruct X.
  - destruct (nth_error index i) as [[d|]|] eqn:E; [|eapply IH; eauto|discriminate].
    destruct (PassesFilters _ _ _ d) as [[|]| |]; cbn [bind] in H; try discriminate; [|eapply IH; eauto].
    destruct (featureOf (Some d)) as [fe| |]; cbn [bind] in H; try discriminate.
    destruct (scLimit config <=? _).
    + cbn [bind] in H. injection H as <-. destruct X as [<-|[]]. cbn. eapply nth_error_In; eauto.
    + destruct (annoy_collect _ _ _ _ _ ids _) as [rest| |] eqn:R; cbn [bind] in H; try discriminate. injection H as <-.
      destruct X as [<-|X]; [cbn; eapply nth_error_In; eauto|eapply IH; eauto].
Qed.

(** The entries visited, as a store in which nothing expires. *)
Definition as_live (vs : list entry) : list (bytes * entry) := map (fun e => ([], mkEntry 0 (edatum e))) vs.

Lemma as_live_visited : forall vs, visited (fun _ => 0%Z) (as_live vs) = map (fun e => mkEntry 0 (edatum e)) vs.
Proof. induction vs as [|e vs IH]; [reflexivity|]. cbn. f_equal. exact IH. Qed.

Lemma index_data_only : forall alive N0 vs, IndexVisited alive N0 vs = IndexVisited alive N0 (map (fun e => mkEntry 0 (edatum e)) vs).
Proof.
  intros alive N0 vs. unfold IndexVisited. set (s := Ok _). generalize s. clear s.
  induction vs as [|e vs IH]; intro s; cbn [map fold_left]; [reflexivity|]. rewrite IH. reflexivity.
Qed.

(** C179.  If the visited vectors have one length, building the index succeeds.  It lists no key
    twice; what it lists was there at some moment of the scan; and a key that was there throughout
    is listed, unless more was visited than the list can hold.  So a later search in this index
    returns only data that were there at some moment of the scan. *)
Theorem C179_index : forall T s0 tr1 s1 tr2 s2 j ys N0 vs f,
  begins T s0 -> cexec s0 tr1 s1 -> cexec s1 tr2 s2 -> (c_now s2 <= T)%Z ->
  nth_error (c_threads s1) j = Some TScan -> nth_error (c_threads s2) j = Some (TScanDone ys) ->
  map edatum vs = ys -> blen ys < M64 -> (forall k v, In (kv k v) ys -> length (vec k) = f) ->
  exists s es1 es2 listed, IndexVisited true N0 vs = Ok s /\
    explained s0 es1 s1 /\ explained s0 (es1 ++ es2) s2 /\
    NoDup (map dkey listed) /\ (forall d, In (Some d) (iData s) <-> In d listed) /\
    (forall d, In d listed -> exists p r, es2 = p ++ r /\ there_after s0 (es1 ++ p) d) /\
    (blen ys <= N.max 1000 N0 ->
     forall k, key_ok k -> key_fits k -> (forall p r, es2 = p ++ r -> key_after s0 (es1 ++ p) k) ->
       exists v, In (kv k v) listed) /\
    (forall I old outs a G ex score tick order m pick query config m' l x, ys <> [] ->
       index_swap I old s outs = Done (Some a) ->
       SearchAnnoy G ex score tick order m (Some a) pick query config = (m', Ok l) -> In x l ->
       exists p r, es2 = p ++ r /\ there_after s0 (es1 ++ p) (sDatum x)).
Proof.
  intros T s0 tr1 s1 tr2 s2 j ys N0 vs f B E1 E2 HT J1 J2 MV LY LF.
  assert (CO : calls_ok s0).
  { destruct B as (W & F & _ & TH). split; [exact W|]. split; [exact F|]. rewrite Forall_forall in *. intros t X. specialize (TH t X).
    destruct t; cbn [caller]; try exact TH; apply TH. }
  destruct (C147_live s0 tr1 s1 j tr2 s2 ys CO E1 J1 E2 J2) as (ND & LV).
  assert (KV : forall d, In d ys -> exists k v, d = kv k v).
  { intros d D. destruct (LV d D) as (_ & _ & s & _ & _ & _ & k & v & _ & -> & _). eauto. }
  destruct (C176_scans T s0 tr1 s1 tr2 s2 j ys B E1 E2 HT J1 J2) as (es1 & es2 & X1 & X2 & SO & CM).
  assert (LO : N.of_nat (length (as_live vs)) < M64).
  { unfold as_live. rewrite map_length. unfold blen in LY. rewrite <- MV, map_length in LY. exact LY. }
  assert (EV : forall e, In e (visited (fun _ => 0%Z) (as_live vs)) -> In (edatum e) ys).
  { intros e X. rewrite as_live_visited in X. apply in_map_iff in X. destruct X as (e' & <- & X). cbn [edatum]. rewrite <- MV. apply in_map. exact X. }
  destruct (index_scan_ok N0 (fun _ => 0%Z) (as_live vs) [] f LO) as (s & IS).
  { intros e X. apply EV in X. destruct (KV _ X) as (k & v & Q). rewrite Q in *. split; [discriminate|]. exact (LF k v X). }
  pose proof (index_scan_spec N0 (fun _ => 0%Z) (as_live vs) [] s LO IS) as SC.
  set (c := N.to_nat (N.max 1000 N0)) in *. set (listed := firstn c ys).
  assert (DA : iData s = map Some listed ++ repeat None (c - length ys)).
  { rewrite (sc_data _ _ _ SC), as_live_visited. unfold listed. rewrite map_length, firstn_map, <- MV, firstn_map, !map_map, map_length. reflexivity. }
  assert (IL : forall d, In (Some d) (iData s) <-> In d listed).
  { intro d. rewrite DA, in_app_iff. split.
    - intros [X|X]; [|apply repeat_spec in X; discriminate]. apply in_map_iff in X. destruct X as (d' & Q & X). injection Q as ->. exact X.
    - intro X. left. apply in_map. exact X. }
  assert (FY : forall d, In d listed -> In d ys).
  { intros d X. rewrite <- (firstn_skipn c ys). apply in_or_app. left. exact X. }
  assert (SD : forall d, In d listed -> exists p r, es2 = p ++ r /\ there_after s0 (es1 ++ p) d) by (intros d X; apply SO, FY, X).
  exists s, es1, es2, listed. split; [|split; [exact X1|split; [exact X2|split; [|split; [exact IL|split; [exact SD|split]]]]]].
  - rewrite index_data_only, <- as_live_visited, (C179_alone true N0 (fun _ => 0%Z) (as_live vs) []). exact IS.
  - unfold listed. rewrite <- firstn_map. apply AnnoyProps.nodup_firstn. exact ND.
  - intros CP k K1 K2 A. destruct (CM k K1 K2 A) as (v & X). exists v. unfold listed. rewrite firstn_all2; [exact X|]. unfold blen in CP. unfold c. lia.
  - intros I old outs a G ex score tick order m pick query config m' l x NE SW SA X.
    assert (DM : exists g, iDim s = Some g).
    { rewrite (sc_dim _ _ _ SC), as_live_visited. destruct vs as [|e vs']; [destruct NE; rewrite <- MV; reflexivity|]. cbn. eauto. }
    destruct DM as (g & DM). unfold index_swap in SW. rewrite DM in SW. destruct (Build _ _ _ _) as [ix| |]; try discriminate. injection SW as <-.
    unfold SearchAnnoy in SA. cbn [yFrom yIndex] in SA.
    assert (LD : (0 <? length (iData s))%nat = true).
    { apply Nat.ltb_lt. rewrite DA, app_length, map_length, repeat_length. unfold listed. rewrite firstn_length. unfold c. lia. }
    rewrite LD in SA. injection SA as _ SA. destruct (featureOf query) as [fq| |]; cbn [bind] in SA; try discriminate.
    destruct (GetNns _ _ _ _ _ _ _) as [ids| |]; cbn [bind] in SA; try discriminate.
    apply SD, IL. eapply collected; eauto.
Qed.
Print Assumptions C179_index.

(** The run of C176_instance_scan as the scan of Process. *)
Example C179_instance : begins 200 s_scanned /\
  (exists tr s, cexec s_scanned tr s /\ (c_now s <= 200)%Z /\
    nth_error (c_threads s_scanned) 1 = Some TScan /\ nth_error (c_threads s) 1 = Some (TScanDone [kv ka vb])) /\
  (forall k v, In (kv k v) [kv ka vb] -> length (vec k) = length (vec ka)) /\
  (exists s, IndexVisited true 0 [mkEntry 150 (kv ka vb)] = Ok s /\ nth_error (iData s) 0 = Some (Some (kv ka vb)) /\
     nth_error (iData s) 1 = Some None).
Proof.
  destruct C176_instance_scan as (A & tr & s & ys & X & H & J1 & J2 & -> & _). split; [exact A|].
  split; [exists tr, s; auto|]. split; [intros k v [Q|[]]; injection Q as <- _; reflexivity|].
  eexists. split; [vm_compute; reflexivity|]. split; reflexivity.
Qed.
