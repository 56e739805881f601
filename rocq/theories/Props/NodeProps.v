(** Properties C53-C57, C66, C70 and C71: peers, addresses, life cycle, endpoints. *)
From Verif.Base Require Import GoBase GoLemmas GoSort Assoc Float.
From Verif.Model Require Import Codec Store Data Insert Dataset Node.
From Verif.Spec Require Import NodeSpec.
From Verif.Proof Require Import NodeP.
Open Scope N_scope.

(** ** C53 *)

(** Calls one after the other, with any clocks: as long as the record under an id
    is visible to each call, its timestamp does not decrease. *)
Theorem C53_monotone_partial : forall G inc id n es n' p p',
  mwf (nPeers n) -> nrun G inc n es = Ok n' -> kept G inc id n es ->
  listed n id p -> listed n' id p' -> pTimestamp p <= pTimestamp p'.
Proof.
  intros G inc id n es n' p p' W R K (i & L & <-) (i' & L' & <-). eapply nrun_mono; eauto.
Qed.
Print Assumptions C53_monotone_partial.

Definition add_inc (now d old : Z) : Z := (old + d)%Z.
Definition sec (n : Z) : Z := (n * 1000000000)%Z.
Definition pr (ts : N) (l : list bytes) : Peer := mkPeer [] ts l [] [].
Definition me : nstate := mkN [] 80 [bs "me:80"] [] [].
Definition ids (s : res pstate) : list (bytes * N) :=
  match s with Ok s' => map (fun x => (fst x, pTimestamp (piPeer (snd x)))) (nPeers (psNode s')) | _ => [] end.

(** Records of 1000 s, 990 s and 1010 s for one peer: the second is ignored. *)
Example C53_monotone_instance : exists n1 n2,
  nrun insertion_sort add_inc me [SAdd (sec 1000) (sec 1000) (Some (pr 1000 [bs "b"; bs "a"]))] = Ok n1 /\
  nrun insertion_sort add_inc n1
    [SAdd (sec 1001) (sec 1001) (Some (pr 990 [bs "a"; bs "b"]));
     SAdd (sec 1002) (sec 1002) (Some (pr 1010 [bs "a"; bs "b"]))] = Ok n2 /\
  kept insertion_sort add_inc (bs "a,b") n1
    [SAdd (sec 1001) (sec 1001) (Some (pr 990 [bs "a"; bs "b"]));
     SAdd (sec 1002) (sec 1002) (Some (pr 1010 [bs "a"; bs "b"]))] /\
  listed n1 (bs "a,b") (pr 1000 [bs "a"; bs "b"]) /\ listed n2 (bs "a,b") (pr 1010 [bs "a"; bs "b"]).
Proof.
  eexists. eexists. split; [vm_compute; reflexivity|]. split; [vm_compute; reflexivity|].
  split; [|split; eexists; split; vm_compute; reflexivity].
  split; [eexists; split; [vm_compute; reflexivity|vm_compute; reflexivity]|].
  match goal with |- match ?x with _ => _ end => let y := eval vm_compute in x in change x with y end. cbn iota.
  split; [eexists; split; [vm_compute; reflexivity|vm_compute; reflexivity]|].
  match goal with |- match ?x with _ => _ end => let y := eval vm_compute in x in change x with y end. exact I.
Qed.

(** C53 refuted: two messages about one peer are handled at the same time; both
    find no record, and the older one is stored last. *)
Theorem C53_monotone_refuted : exists G inc n es1 es2 s1 s2 id p1 p2,
  nPeers n = [] /\ prun G inc (mkP n []) es1 = Ok s1 /\ prun G inc s1 es2 = Ok s2 /\
  es2 = [PStep (sec 1000) 1] /\
  listed (psNode s1) id p1 /\ listed (psNode s2) id p2 /\ pTimestamp p2 < pTimestamp p1.
Proof.
  exists insertion_sort, add_inc, me,
    [PRecv (Some (pr 1000 [bs "a"])); PRecv (Some (pr 900 [bs "a"]));
     PStep (sec 1000) 0; PStep (sec 1000) 1; PStep (sec 1000) 0],
    [PStep (sec 1000) 1].
  eexists. eexists. exists (bs "a"), (pr 1000 [bs "a"]), (pr 900 [bs "a"]).
  split; [reflexivity|]. split; [vm_compute; reflexivity|]. split; [vm_compute; reflexivity|]. split; [reflexivity|].
  split; [eexists; split; [vm_compute; reflexivity|vm_compute; reflexivity]|]. split; [eexists; split; [vm_compute; reflexivity|vm_compute; reflexivity]|].
  vm_compute. reflexivity.
Qed.
Print Assumptions C53_monotone_refuted.

(** In every execution, concurrent or not, every listed record was received and was
    less than 300 s old when it was stored; only its addresses are reordered. *)
Theorem C53_recent : forall G inc n es s id p,
  nPeers n = [] -> prun G inc (mkP n []) es = Ok s -> listed (psNode s) id p ->
  exists es1 now k es2 q,
    es = es1 ++ PStep now k :: es2 /\ In (PRecv (Some q)) es1 /\ same_peer p q /\
    ((0 <= now)%Z -> (seconds now < 18446744073709551616)%Z -> pTimestamp q < M64 ->
     (seconds now < Z.of_N (pTimestamp q) + 300)%Z).
Proof.
  intros G inc n es s id p E R (i & L & <-).
  assert (J : Jrec G [] (mkP n [])).
  { unfold Jrec. cbn [psNode psThreads]. rewrite E. split; [constructor|]. split; [intros id' i' X; discriminate X|].
    intros k q [X|X]; destruct k; discriminate X. }
  pose proof (Jrec_run G inc es [] (mkP n []) s J R) as (_ & C & _). cbn [app] in C.
  destruct (C id i L) as (es1 & now & k & es2 & q & EQ & IN & RC & SP & _).
  exists es1, now, k, es2, q. split; [exact EQ|]. split; [exact IN|]. split; [exact SP|].
  intros. apply recent_real; auto.
Qed.
Print Assumptions C53_recent.
(** A record of 750 s is stored at 1000 s, one of 700 s is not. *)
Example C53_recent_instance :
  ids (prun insertion_sort add_inc (mkP me [])
    [PRecv (Some (pr 750 [bs "a"])); PRecv (Some (pr 700 [bs "b"]));
     PStep (sec 1000) 0; PStep (sec 1000) 1; PStep (sec 1000) 0; PStep (sec 1000) 1]) = [(bs "a", 750)].
Proof. vm_compute. reflexivity. Qed.

(** As long as replies to join requests bring no address, the node is not listed
    under its own id. *)
Theorem C53_self_partial : forall G inc n es s,
  nPeers n = [] -> Forall silent es -> prun G inc (mkP n []) es = Ok s ->
  own_id G (psNode s) = own_id G n /\ forall p, ~ listed (psNode s) (own_id G (psNode s)) p.
Proof.
  intros G inc n es s E F R.
  assert (J : Jself G n (mkP n [])).
  { unfold Jself. cbn [psNode psThreads]. rewrite E. split; [constructor|]. split; [reflexivity|].
    split; [intros i X; discriminate X|]. split; [|split]; intros k x X; destruct k; discriminate X. }
  destruct (Jself_run G inc n es _ _ J F R) as (_ & OA & NS & _).
  pose proof (own_id_eq G _ _ OA) as EQ. split; [exact EQ|]. intros p (i & L & _). rewrite EQ in L. exact (NS i L).
Qed.
Print Assumptions C53_self_partial.
Example C53_self_instance :
  ids (prun insertion_sort add_inc (mkP me [])
    [PRecv (Some (pr 1000 [bs "me:80"])); PRecv (Some (pr 1000 [bs "you:80"]));
     PStep (sec 1000) 0; PStep (sec 1000) 1; PStep (sec 1000) 0; PStep (sec 1000) 1]) = [(bs "you:80", 1000)].
Proof. vm_compute. reflexivity. Qed.

(** C53 refuted: the node learns a further address; its own older record, sent back
    by a peer, is then listed as a peer. *)
Theorem C53_self_refuted : exists G inc n now es s id,
  nPeers n = [] /\ prun G inc (mkP n []) es = Ok s /\
  In (PRecv (Some (GetNodeInfo now n [] []))) es /\
  listed (psNode s) id (GetNodeInfo now n [] []) /\
  incl (pAddressList (GetNodeInfo now n [] [])) (own_addresses (psNode s)).
Proof.
  exists insertion_sort, add_inc, me, (sec 1000),
    [PReply (bs "10.0.0.1"); PStep (sec 1000) 0; PStep (sec 1000) 0;
     PRecv (Some (GetNodeInfo (sec 1000) me [] [])); PStep (sec 1010) 1; PStep (sec 1010) 1].
  eexists. exists (bs "me:80"). split; [reflexivity|]. split; [vm_compute; reflexivity|].
  split; [cbn; auto 10|]. split; [eexists; split; [vm_compute; reflexivity|vm_compute; reflexivity]|].
  intros x H. vm_compute in H |- *. tauto.
Qed.
Print Assumptions C53_self_refuted.

(** ** C54 *)

(** For addresses without commas, none empty, two peers have the same id exactly
    when their addresses are the same up to order. *)
Theorem C54_identity_partial : forall G p q,
  Forall plain (pAddressList p) -> Forall plain (pAddressList q) ->
  (GetIdOfPeer G (Some p) = GetIdOfPeer G (Some q) <-> Permutation (pAddressList p) (pAddressList q)).
Proof.
  intros G p q Fp Fq. split; [|apply id_same].
  intro E. unfold GetIdOfPeer, SerializeStringArray in E. cbn [snd] in E.
  assert (PF : forall l, Forall plain l -> Forall plain (sort_run G string_less l)).
  { intros l F. rewrite Forall_forall in *. intros x IN. apply F. eapply Permutation_in; [|exact IN].
    apply Permutation_sym, sort_perm. }
  apply join_inj in E; auto.
  eapply perm_trans; [apply sort_perm|]. rewrite E. apply Permutation_sym, sort_perm.
Qed.
Print Assumptions C54_identity_partial.
Example C54_instance :
  Forall plain [bs "b:1"; bs "a:1"] /\
  GetIdOfPeer insertion_sort (Some (pr 1 [bs "b:1"; bs "a:1"])) = bs "a:1,b:1" /\
  GetIdOfPeer insertion_sort (Some (pr 2 [bs "a:1"; bs "b:1"])) = bs "a:1,b:1" /\
  GetIdOfPeer insertion_sort (Some (pr 2 [bs "a:1"; bs "a:1"])) = bs "a:1,a:1".
Proof.
  split; [|vm_compute; auto]. repeat constructor; try discriminate; intro H; vm_compute in H;
    repeat (destruct H as [H|H]; [discriminate H|]); exact H.
Qed.

(** C54 refuted: one address with a comma, and no address against an empty one. *)
Theorem C54_refuted : exists p q p' q', forall G,
  GetIdOfPeer G (Some p) = GetIdOfPeer G (Some q) /\ ~ Permutation (pAddressList p) (pAddressList q) /\
  GetIdOfPeer G (Some p') = GetIdOfPeer G (Some q') /\ ~ Permutation (pAddressList p') (pAddressList q') /\
  Forall (fun a => ~ In comma a) (pAddressList p') /\ Forall (fun a => ~ In comma a) (pAddressList q').
Proof.
  exists (pr 1 [bs "a,b"]), (pr 1 [bs "a"; bs "b"]), (pr 1 []), (pr 1 [[]]). intro G.
  assert (S : forall l, sorted string_less l -> sort_run G string_less l = l).
  { intros l H. apply sorted_unique; [apply sort_sorted, less_swo|exact H|apply Permutation_sym, sort_perm]. }
  unfold GetIdOfPeer, SerializeStringArray. cbn [pr pAddressList snd].
  split; [rewrite !S; [reflexivity| |]; repeat constructor|].
  split; [intro P; apply Permutation_length in P; discriminate P|].
  split; [rewrite !S; [reflexivity| |]; repeat constructor|].
  split; [intro P; apply Permutation_length in P; discriminate P|].
  split; repeat constructor. intros [].
Qed.
Print Assumptions C54_refuted.

(** ** C55 *)

(** The advertised list has each known and configured address once, in order of
    first appearance, known ones first. *)
Theorem C55_advertised : forall now n services configs,
  once_each (nKnownIds n ++ nAdvertisedIds n) (pAddressList (GetNodeInfo now n services configs)).
Proof. intros. apply unique_spec. Qed.
Print Assumptions C55_advertised.

(** The address chosen to contact a peer, if none of the peer's is empty: one of
    the peer's that is not the node's own, and none only if there is no such. *)
Theorem C55_contact_partial : forall n p,
  ~ In [] (pAddressList p) ->
  let a := GetDifferentAddressOf n p in
  (a <> [] -> In a (pAddressList p) /\ ~ In a (nKnownIds n) /\ ~ In a (nAdvertisedIds n)) /\
  (a = [] <-> forall b, In b (pAddressList p) -> In b (nKnownIds n) \/ In b (nAdvertisedIds n)).
Proof.
  intros n p NE a. subst a. unfold GetDifferentAddressOf.
  assert (OW : forall b, In b (own_addresses n) <-> In b (nKnownIds n) \/ In b (nAdvertisedIds n)).
  { intro b. unfold own_addresses, unique. rewrite unique_in, in_app_iff. cbn. tauto. }
  destruct (first_different (own_addresses n) (pAddressList p)) as [[E H]|[H1 H2]].
  - rewrite E. split; [congruence|]. split; [|auto]. intros _ b IN. apply OW. apply H; auto.
    + intro. subst. auto.
    + apply Forall_forall. intros x IX X. subst. auto.
  - split.
    + intros _. split; [exact H1|]. rewrite OW in H2. tauto.
    + split; [intro E; rewrite E in H1; contradiction|].
      intro H. exfalso. apply H2, OW, H. exact H1.
Qed.
Print Assumptions C55_contact_partial.
Example C55_instance :
  pAddressList (GetNodeInfo 0 (mkN [] 80 [bs "x"; bs "y"] [bs "y"; bs "z"; bs "x"] []) [] []) = [bs "x"; bs "y"; bs "z"] /\
  GetDifferentAddressOf (mkN [] 80 [bs "x"] [bs "y"] []) (pr 1 [bs "y"; bs "p"; bs "q"]) = bs "p" /\
  ~ In [] (pAddressList (pr 1 [bs "y"; bs "p"; bs "q"])).
Proof. split; [reflexivity|]. split; [reflexivity|]. cbn. intros [H|[H|[H|[]]]]; discriminate H. Qed.

(** C55 refuted: an empty address sorts first and hides a usable one. *)
Theorem C55_contact_refuted : exists n p b,
  In b (pAddressList p) /\ b <> [] /\ ~ In b (nKnownIds n ++ nAdvertisedIds n) /\
  GetDifferentAddressOf n (sort_peer insertion_sort p) = [].
Proof.
  exists me, (pr 1 [bs "p:80"; []]), (bs "p:80"). split; [left; auto|]. split; [discriminate|].
  split; [cbn; intros [H|[]]; discriminate H|]. vm_compute. reflexivity.
Qed.
Print Assumptions C55_contact_refuted.

(** ** C56 *)

(** After the drain flag was set, whatever else happens, every insert request is
    refused and no request is admitted any more. *)
Theorem C56_refused : forall s es1 es2 r,
  snd (lstep (lrun s (es1 ++ LCloseDrain :: es2)) (LInsert r)) = Some true /\
  incl (lAdmitted (lrun s (es1 ++ LCloseDrain :: es2))) (lAdmitted (lrun s es1)).
Proof.
  intros s es1 es2 r. rewrite lrun_app. cbn [lrun].
  destruct (drain_stays es2 (fst (lstep (lrun s es1) LCloseDrain)) eq_refl) as [D I].
  split; [|exact I]. set (s' := lrun _ es2) in *. cbn [lstep]. rewrite D. reflexivity.
Qed.
Print Assumptions C56_refused.

(** If no synchronisation with peers finishes after Close, the node stays not
    ready. *)
Theorem C56_not_ready_partial : forall s es1 es2 sniff,
  ~ In LSync es2 ->
  fst (fst (response sniff (GetReady (lrun s (es1 ++ LCloseReady :: es2)) w0))) = 503.
Proof.
  intros s es1 es2 sniff N. rewrite lrun_app. cbn [lrun]. unfold GetReady.
  rewrite ready_stays; auto.
Qed.
Print Assumptions C56_not_ready_partial.
Example C56_instance :
  let s := lrun (mkLife true false false []) [LSync; LInsert 7; LCloseReady; LInsert 8; LCloseDrain; LInsert 9; LFinish 7] in
  lAdmitted s = [8%nat] /\ snd (lstep s (LInsert 9)) = Some true /\
  fst (fst (response (fun x => x) (GetReady s w0))) = 503.
Proof. vm_compute. auto. Qed.

(** C56 refuted: the periodic synchronisation is not stopped by Close and sets the
    ready flag again. *)
Theorem C56_ready_refuted : exists s es1 es2 sniff,
  let s' := lrun s (es1 ++ LCloseReady :: LCloseDrain :: es2) in
  fst (fst (response sniff (GetReady s' w0))) = 200 /\ lDrain s' = true.
Proof. exists (mkLife true false false []), [LSync], [LSync], (fun x => x). vm_compute. auto. Qed.
Print Assumptions C56_ready_refuted.

(** ** C57 *)

(** Status codes for every state, and the bodies except for the unhealthy one. *)
Theorem C57_status_partial : forall s sniff,
  (let '(code, _, body) := response sniff (GetReady s w0) in
   (code = 200 <-> lReady s = true) /\ (code = 503 <-> lReady s = false) /\
   body = bs (if lReady s then "{""alive"": true}" else "{""alive"": false}")) /\
  (let '(code, _, body) := response sniff (GetHeath s w0) in
   (code = 200 <-> lHealth s = true) /\ (code = 500 <-> lHealth s = false) /\
   (lHealth s = true -> body = bs "{""alive"": true}")).
Proof.
  intros [h r d ad] sniff. split; [destruct r|destruct h]; vm_compute; repeat split; intros; congruence.
Qed.
Print Assumptions C57_status_partial.
Example C57_instance :
  fst (fst (response (fun x => x) (GetReady (mkLife true true false []) w0))) = 200 /\
  fst (fst (response (fun x => x) (GetReady (mkLife true false false []) w0))) = 503 /\
  fst (fst (response (fun x => x) (GetHeath (mkLife false true false []) w0))) = 500.
Proof. vm_compute. auto. Qed.

(** C57 refuted, for every state: the content type is set after the headers were
    sent, so the type is whatever net/http detects in the body (for these bodies
    text/plain). *)
Theorem C57_content_type_refuted : forall s sniff,
  snd (fst (response sniff (GetReady s w0))) = sniff (wBody (GetReady s w0)) /\
  snd (fst (response sniff (GetHeath s w0))) = sniff (wBody (GetHeath s w0)) /\
  exists sniff', snd (fst (response sniff' (GetReady s w0))) <> application_json.
Proof.
  intros [h r d ad] sniff. split; [destruct r; reflexivity|]. split; [destruct h; reflexivity|].
  exists (fun _ => bs "text/plain; charset=utf-8"). destruct r; discriminate.
Qed.
Print Assumptions C57_content_type_refuted.

(** C57 refuted: the body of the unhealthy answer says alive. *)
Theorem C57_body_refuted : exists s, forall sniff,
  response sniff (GetHeath s w0) = (500, sniff (bs "{""alive"": true}"), bs "{""alive"": true}").
Proof. exists (mkLife false false false []). intro. reflexivity. Qed.
Print Assumptions C57_body_refuted.

(** ** C66 *)

(** The echoed address of a caller host:port with a host. *)
Theorem C66_echo_partial : forall loopback host port,
  host <> [] -> ~ In colon port ->
  let a := Join_address loopback (Some (host ++ colon :: port)) in
  (loopback (no_brackets host) = true -> a = bs "localhost") /\
  (loopback (no_brackets host) = false -> (1 < length host)%nat -> a = host) /\
  (loopback (no_brackets host) = false -> (length host <= 1)%nat -> a = []) /\
  Join_address loopback None = [].
Proof.
  intros lb host port NE NC a. subst a. rewrite (join_address_eq lb host port NE NC).
  split; [intros ->; reflexivity|]. split; [|split; [|reflexivity]]; intros -> L;
    destruct (N.leb_spec (blen host) 1) as [X|X]; auto; unfold blen in X; lia.
Qed.
Print Assumptions C66_echo_partial.
Example C66_echo_instance :
  Join_address (fun s => bytes_eqb s (bs "::1")) (Some (bs "[::1]:5000")) = bs "localhost" /\
  Join_address (fun s => bytes_eqb s (bs "::1")) (Some (bs "10.0.0.7:5000")) = bs "10.0.0.7".
Proof. vm_compute. auto. Qed.

(** C66 refuted: a caller address without host (net.TCPAddr with no IP prints ":80")
    is echoed with its port. *)
Theorem C66_echo_refuted : exists port, port <> [] /\ forall loopback,
  loopback (no_brackets (colon :: port)) = false -> Join_address loopback (Some (colon :: port)) = colon :: port.
Proof.
  exists (bs "80"). split; [discriminate|]. intros lb H. unfold Join_address. vm_compute in H |- *. rewrite H. reflexivity.
Qed.
Print Assumptions C66_echo_refuted.

(** The addresses a node lists as its own are distinct at any time of any
    execution, and none of those it knew is lost. *)
Theorem C66_listed_once : forall G inc n es s now services configs,
  prun G inc (mkP n []) es = Ok s ->
  NoDup (pAddressList (GetNodeInfo now (psNode s) services configs)) /\
  incl (own_addresses n) (pAddressList (GetNodeInfo now (psNode s) services configs)).
Proof.
  intros G inc n es s now services configs R. destruct (prun_known G inc es _ _ R) as [A I].
  cbn [psNode] in A, I. split; [apply unique_nodup|]. intros x H. unfold GetNodeInfo. cbn [pAddressList].
  unfold own_addresses, unique in *. rewrite unique_in, in_app_iff in *. rewrite A.
  destruct H as [[H|H] _]; auto.
Qed.
Print Assumptions C66_listed_once.

(** Joins one after the other: every echoed address is known afterwards, with the
    node's port, and nothing is known twice. *)
Theorem C66_known_once_partial : forall G inc n es n',
  NoDup (nKnownIds n) -> nrun G inc n es = Ok n' ->
  NoDup (nKnownIds n') /\
  exists port, number_text (nPort n) port /\
  forall a, In (SLearn a) es -> a <> [] -> In (a ++ bs ":" ++ port) (nKnownIds n').
Proof.
  intros G inc n es n' ND R. destruct (nrun_known G inc es n n' R) as (_ & _ & D & _ & L). split; [auto|].
  exists (decimal (nPort n)). split; [apply decimal_text|exact L].
Qed.
Print Assumptions C66_known_once_partial.
Example C66_known_instance :
  nrun insertion_sort add_inc me [SLearn (bs "h"); SLearn (bs "g"); SLearn (bs "h")] =
    Ok (mkN [] 80 [bs "me:80"; bs "h:80"; bs "g:80"] [] []).
Proof. vm_compute. reflexivity. Qed.

(** C66 refuted for the list of known ids: two overlapping joins add the same
    address twice. *)
Theorem C66_known_once_refuted : exists G inc n es s,
  NoDup (nKnownIds n) /\ prun G inc (mkP n []) es = Ok s /\ ~ NoDup (nKnownIds (psNode s)).
Proof.
  exists insertion_sort, add_inc, me,
    [PReply (bs "h"); PReply (bs "h"); PStep 0 0; PStep 0 1; PStep 0 0; PStep 0 1].
  eexists. split; [repeat constructor; intros []|]. split; [vm_compute; reflexivity|].
  cbn. intro H. inversion H as [|? ? _ H2]. inversion H2 as [|? ? N _]. apply N. left. reflexivity.
Qed.
Print Assumptions C66_known_once_refuted.

(** ** C70 *)

(** Messages with a peer never crash the node, in any interleaving. *)
Theorem C70_no_crash_partial : forall G inc n es,
  Forall present es -> exists s, prun G inc (mkP n []) es = Ok s.
Proof.
  intros G inc n es F. apply nil_free_run; auto. intro k. destruct k; split; discriminate.
Qed.
Print Assumptions C70_no_crash_partial.
Example C70_instance : Forall present
  [PRecv (Some (pr 1000 [])); PStep (sec 1000) 0; PReply (bs "h"); PStep (sec 1000) 0; PCheck (sec 2000) (pr 1000 [])].
Proof. repeat constructor; discriminate. Qed.

(** C70 refuted: a record without addresses is stored under the empty id; a message
    without peer then has the same id and the missing peer is dereferenced. *)
Theorem C70_refuted : exists G inc n es,
  nPeers n = [] /\ prun G inc (mkP n []) es = Panic.
Proof.
  exists insertion_sort, add_inc, me,
    [PRecv (Some (pr 1000 [])); PStep (sec 1000) 0; PStep (sec 1000) 0; PRecv None; PStep (sec 1001) 1].
  split; [reflexivity|]. vm_compute. reflexivity.
Qed.
Print Assumptions C70_refuted.

(** ** C71 *)

(** A configured list of addresses: those without port get the node's port, those
    with one are kept, in the given order. *)
Theorem C71_configured_partial : forall l port,
  l <> [] -> Forall plain l -> exists text, number_text port text /\
  Forall2 (fun a b => (~ In colon a -> b = a ++ bs ":" ++ text) /\ (In colon a -> b = a))
    l (broadcastAddresses (join comma l) port).
Proof.
  intros l port NE F. exists (decimal port). split; [apply decimal_text|]. rewrite broadcast_eq by auto. clear NE F.
  induction l as [|a l IH]; cbn [map]; constructor; auto.
  destruct (existsb (N.eqb colon) a) eqn:E.
  - apply existsb_exists in E. destruct E as (x & IN & X). apply N.eqb_eq in X. subst x. split; [contradiction|auto].
  - split; [auto|]. intro IN. assert (X : existsb (N.eqb colon) a = true) by (apply existsb_exists; exists colon; split; [auto|apply N.eqb_refl]).
    congruence.
Qed.
Print Assumptions C71_configured_partial.
Example C71_instance :
  broadcastAddresses (bs "a,b:9") 10000 = [bs "a:10000"; bs "b:9"] /\ broadcastAddresses [] 10000 = [].
Proof. vm_compute. auto. Qed.

(** C71 refuted: an IPv6 address gets no port, and a trailing comma configures an
    address without host. *)
Theorem C71_refuted : forall port,
  broadcastAddresses (bs "fe80::1") port = [bs "fe80::1"] /\
  In (bs ":" ++ decimal port) (broadcastAddresses (bs "a,") port).
Proof. intro port. split; [reflexivity|]. right. left. reflexivity. Qed.
Print Assumptions C71_refuted.
