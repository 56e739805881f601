(** Property C130: replicas that agree stop sending data to each other. *)
From Verif.Base Require Import GoBase GoLemmas Assoc Float.
From Verif.Model Require Import Codec Store Data Insert Vector Search Dataset Sync.
From Verif.Spec Require Import StoreSpec VectorSpec SyncSpec SettleSpec.
From Verif.Proof Require Import StoreP VectorP SyncP SyncQ RoundP QuotaP.
From Verif.Props Require Import StoreProps SyncProps.
From Coq Require Import Lia.
Open Scope N_scope.
Ltac Zify.zify_post_hook ::= Z.div_mod_to_equations.

(** Exactly what a source is granted in one run, in whole numbers. *)
Lemma quota_exact : forall M li i, iN li < 9007199254740991 -> iN i < 9223372036854775808 ->
  quota M li i =
    if alike M li i then (if 100 * surplus (iN li) (iN i) <=? iN li then 0 else 1)
    else if iN li <? iN i then 1 else surplus (iN li) (iN i).
Proof.
  intros M li i A B. unfold quota, alike, surplus. cbv zeta.
  assert (U1 : u64 (iN li + 1) = iN li + 1) by (unfold u64, M64; apply N.mod_small; lia).
  set (d := N.min (u64 (sub64 (iN li) (iN i) / 2 + 1)) 1000).
  assert (D : d = if iN li <? iN i then 1000 else N.min ((iN li - iN i) / 2 + 1) 1000).
  { unfold d. destruct (N.ltb_spec (iN li) (iN i)) as [L|L].
    - unfold sub64, u64, M64. rewrite (N.mod_small (iN i)) by lia.
      rewrite (N.mod_small (iN li + _)) by lia. rewrite N.mod_small by lia. lia.
    - rewrite sub64_small by (unfold M64; lia). unfold u64, M64. rewrite N.mod_small by lia. reflexivity. }
  assert (DB : 1 <= d <= 1000) by (rewrite D; destruct (iN li <? iN i); lia).
  change (f64div (f64_of_Z 1) (f64_of_Z 100)) with f0_01.
  destruct (fleb _ _).
  - rewrite U1, below_hundredth by lia. rewrite <- D.
    destruct (Z.ltb_spec (100 * Z.of_N d) (Z.of_N (iN li + 1))); destruct (N.leb_spec (100 * d) (iN li)); auto; lia.
  - destruct (iN li <? iN i); auto.
Qed.

(** C130.  Exactly what one statistics run of a dataset grants each of the sources it
    asks.  A source whose statistics are alike is granted nothing if the surplus is
    below one hundredth of the data, and one datum otherwise - where a source with
    more data counts as one with a surplus of a thousand.  Another source is granted
    the surplus, or one datum if it has more. *)
Theorem C130_exact_partial : forall M P dt dt' r force,
  dN dt < 9007199254740991 -> NoDup (pItems P) ->
  (forall id i, pInfo P id = Some i -> iN i < 9223372036854775808) ->
  Process M P dt force = Ok (dt', Some r) ->
  forall id q, mload (rDiff r) id = Some q ->
    exists li i, GetDataInfo dt = Ok li /\ pInfo P id = Some i /\
      q = if alike M li i then (if 100 * surplus (dN dt) (iN i) <=? dN dt then 0 else 1)
          else if dN dt <? iN i then 1 else surplus (dN dt) (iN i).
Proof.
  intros M P dt dt' r force SM ND INF PR id q L.
  destruct (process_spec _ _ _ _ _ _ PR) as (li & cf & limit & dm & GI & _ & DM & _ & _ & _ & C).
  assert (IN : iN li = dN dt) by (eapply info_N; eauto).
  destruct C as [(_ & C)|(_ & _ & C & _)]; [|discriminate C].
  cbv zeta in C. destruct C as (_ & _ & _ & _ & _ & ER).
  destruct (0 <? dN dt); [|discriminate ER]. injection ER as ->. cbn [rDiff] in L.
  assert (INF' : forall id i, pInfo P id = Some i -> iN i < M64).
  { intros id0 i0 I0. specialize (INF _ _ I0). unfold M64. lia. }
  destruct (diffmap_spec M (pItems P) (pInfo P) li dm limit ltac:(rewrite IN; unfold M64; lia) INF' ND DM) as (_ & _ & _ & _ & S4).
  destruct (S4 id q L) as (_ & i & I2 & ->). exists li, i. split; [exact GI|]. split; [exact I2|].
  rewrite <- IN. apply quota_exact; [rewrite IN; exact SM|eauto].
Qed.
Print Assumptions C130_exact_partial.

Lemma mul_not_nan : forall p e m x s, exists y, binary_round_aux p e s (Zpos m) x loc_Exact = y /\ y <> S754_nan.
Proof.
  intros p e m x s. eexists. split; [reflexivity|]. unfold binary_round_aux, shr_fexp.
  destruct (shr _ x _) as [r1 e1] eqn:S1.
  assert (P1 : (0 <= shr_m r1)%Z).
  { pose proof (shr_spec (shr_record_of_loc (Zpos m) loc_Exact) x (fexp p e (Zdigits2 (Zpos m) + x) - x)) as [A _]; [rewrite m_back; lia|].
    rewrite S1 in A. cbn [fst] in A. rewrite A, m_back. apply Z.div_pos; [lia|]. apply Z.pow_pos_nonneg; lia. }
  set (R := round_nearest_even (shr_m r1) (loc_of_shr_record r1)).
  assert (P2 : (0 <= R)%Z) by (unfold R; destruct (rne_cases (shr_m r1) (loc_of_shr_record r1)) as [-> | ->]; lia).
  destruct (shr (shr_record_of_loc R loc_Exact) e1 (fexp p e (Zdigits2 R + e1) - e1)) as [r2 e2] eqn:S2.
  assert (P3 : (0 <= shr_m r2)%Z).
  { pose proof (shr_spec (shr_record_of_loc R loc_Exact) e1 (fexp p e (Zdigits2 R + e1) - e1)) as [A _]; [rewrite m_back; lia|].
    rewrite S2 in A. cbn [fst] in A. rewrite A, m_back. apply Z.div_pos; [lia|]. apply Z.pow_pos_nonneg; lia. }
  destruct (shr_m r2); try discriminate; [|lia]. destruct (Zle_bool e2 (e - p)); discriminate.
Qed.

Lemma hundredth_nonneg : forall x, fleb fzero x = true -> fleb fzero (f64mul f0_01 x) = true.
Proof.
  intros x H. destruct x as [s|s| |s m e]; try (destruct s; try discriminate H; reflexivity).
  - discriminate H.
  - destruct s; [discriminate H|]. unfold f64mul, f0_01. cbn [SFmul xorb].
    destruct (mul_not_nan prec64 emax64 (5764607523034235 * m) (-59 + e) false) as (y & E & NN).
    pose proof (round_aux_nonneg prec64 emax64 (Zpos (5764607523034235 * m)) (-59 + e) loc_Exact) as Y.
    rewrite E in *. destruct y as [[]|[]| |[] ? ?]; cbn in *; try reflexivity; try discriminate; congruence.
Qed.

Lemma agree_alike : forall M dt li i, pow2_ok M -> GetDataInfo dt = Ok li -> sensible dt -> agrees dt i ->
  alike M li i = true.
Proof.
  intros M dt li i PW G (FA & FH & MX) (EN & EA & EH). unfold GetDataInfo in G.
  destruct (dConfig dt); [|discriminate G]. injection G as <-. unfold alike. cbn [iAvg iHist iMaxDistance].
  rewrite EA, EH, !distance_self by auto. change (f64add (S754_zero false) (S754_zero false)) with fzero.
  change (f64div (f64_of_Z 1) (f64_of_Z 100)) with f0_01. apply hundredth_nonneg. exact MX.
Qed.

(** C130 (partial).  A source that agrees with the dataset is granted nothing if there
    are at least a hundred data, and one datum if there are fewer. *)
Theorem C130_granted_partial : forall M P dt dt' r force id q i,
  pow2_ok M -> dN dt < 9007199254740991 -> sensible dt -> NoDup (pItems P) ->
  (forall id i, pInfo P id = Some i -> iN i < 9223372036854775808) ->
  Process M P dt force = Ok (dt', Some r) ->
  mload (rDiff r) id = Some q -> pInfo P id = Some i -> agrees dt i ->
  q = if 100 <=? dN dt then 0 else 1.
Proof.
  intros M P dt dt' r force id q i PW SM SE ND INF PR L I A.
  destruct (C130_exact_partial _ _ _ _ _ _ SM ND INF PR id q L) as (li & i' & G & I' & ->).
  rewrite I in I'. injection I' as <-. rewrite (agree_alike M dt li i PW G SE A).
  destruct A as (-> & _). unfold surplus. rewrite N.ltb_irrefl, N.sub_diag. reflexivity.
Qed.
Print Assumptions C130_granted_partial.

(** Senders that have nothing to send. *)
Definition nothing (r : sender) : Prop := rQueue r = [] /\ rPc r = Idle.

Lemma total_zero : forall (m : amap N), mwf m -> (forall id q, mload m id = Some q -> q = 0) -> total m = 0.
Proof.
  induction m as [|[k v] m IH]; intros W H; [reflexivity|]. cbn [total fold_right snd].
  assert (v = 0) by (apply (H k); cbn [mload]; rewrite bytes_eqb_refl; reflexivity). subst v.
  inversion W as [|? ? N1 N2]; subst. rewrite N.add_0_l. apply IH; [exact N2|].
  intros id q L. apply (H id). cbn [mload]. destruct (bytes_eqb k id) eqn:E; [|exact L].
  apply bytes_eqb_spec in E. subst id. exfalso. apply mload_none in N1. congruence.
Qed.

Lemma process_nothing : forall M P dt dt' r force, pow2_ok M ->
  all_agree 100 (mkSync dt []) (YProcess P force) -> Process M P dt force = Ok (dt', Some r) -> nothing r.
Proof.
  intros M P dt dt' r force PW (AL & (LO & HI) & SE & ND & AG) PR. cbn [yData] in *.
  destruct (process_spec _ _ _ _ _ _ PR) as (li & cf & limit & dm & GI & _ & DM & _ & _ & _ & C).
  assert (IN : iN li = dN dt) by (eapply info_N; eauto).
  destruct C as [(_ & C)|(_ & _ & C & _)]; [|discriminate C].
  cbv zeta in C. destruct C as (_ & _ & _ & _ & _ & ER).
  destruct (0 <? dN dt); [|discriminate ER]. injection ER as ->. cbn [rQueue rPc].
  split; [|reflexivity]. cbn [rQueue].
  assert (INF' : forall id i, pInfo P id = Some i -> iN i < M64).
  { intros id0 i0 I0. destruct (AG _ _ I0) as (-> & _). unfold M64. lia. }
  destruct (diffmap_spec M (pItems P) (pInfo P) li dm limit ltac:(rewrite IN; unfold M64; lia) INF' ND DM) as (W & S1 & _ & _ & S4).
  assert (Z0 : limit = 0).
  { rewrite S1. apply total_zero; [exact W|]. intros id q L. destruct (S4 id q L) as (_ & i & I & ->).
    pose proof (AG _ _ I) as A. rewrite quota_exact by (destruct A as (A & _); lia).
    rewrite (agree_alike M dt li i PW GI SE A). destruct A as (A & _). rewrite A, IN. unfold surplus.
    rewrite N.ltb_irrefl, N.sub_diag. destruct (N.leb_spec (100 * N.min (0 / 2 + 1) 1000) (dN dt)) as [_|X]; [reflexivity|].
    change (100 * N.min (0 / 2 + 1) 1000) with 100 in X. lia. }
  clear S1 DM. subst limit.
  destruct (scan_bounded M (senv_of P dt 0) (live_of (pTick P) (pOrder P)) scan0) as [X1 X2].
  - exact AL.
  - cbn [senv_of eLimit]. unfold M64. lia.
  - reflexivity.
  - cbn. lia.
  - unfold scan_fold in *. cbn [senv_of eLimit] in X2. rewrite X1 in X2.
    destruct (sOut _) as [|x l]; [reflexivity|]. unfold blen in X2. cbn [length] in X2. lia.
Qed.

(** C130 (partial).  As long as the sources agree with the dataset whenever statistics
    are computed, and there are at least a hundred data, nothing is sent to any of
    them, whatever else happens. *)
Theorem C130_settled_partial : forall M undef s es s',
  pow2_ok M -> ySenders s = [] -> every M undef (all_agree 100) s es ->
  sync_run M undef s es = Some s' -> messages M undef s es = [].
Proof.
  intros M undef s es s' PW N0.
  assert (H0 : Forall nothing (ySenders s)) by (rewrite N0; constructor). clear N0.
  revert s H0. induction es as [|e es IH]; intros s H0 EV R; [reflexivity|].
  cbn [every] in EV. cbn [sync_run messages] in *. destruct EV as [A EV].
  destruct (sync_step M undef s e) as [s1|] eqn:ST; [|discriminate R].
  assert (OB : observe s e = []).
  { destruct e as [| i e| | | | ]; try reflexivity. destruct e as [| |ok|]; try reflexivity. cbn [observe].
    destruct (nth_error (ySenders s) i) as [r|] eqn:N1; [|reflexivity].
    rewrite Forall_forall in H0. destruct (H0 r (nth_error_In _ _ N1)) as [_ ->]. reflexivity. }
  rewrite OB. cbn [app]. apply IH; auto. clear IH R EV OB. destruct e as [P force|i e|now d c|d|l|]; cbn [sync_step] in ST.
  - destruct (Process M P (yData s) force) as [[dt [r|]]| |] eqn:PR; try discriminate ST; injection ST as <-; auto.
    cbn [ySenders]. apply Forall_app. split; [exact H0|]. constructor; [|constructor].
    eapply process_nothing; [exact PW| |exact PR]. exact A.
  - destruct (nth_error (ySenders s) i) as [r|] eqn:N1; [|discriminate ST].
    assert (NR : nothing r) by (rewrite Forall_forall in H0; apply H0; eapply nth_error_In; exact N1).
    destruct NR as [Q1 Q2]. unfold sender_step in ST. rewrite Q1, Q2 in ST. destruct e; discriminate ST.
  - destruct (InsertLocal now (yData s) d c) as [[dt o]| |]; try discriminate ST. injection ST as <-. exact H0.
  - destruct (DeleteBDMap (dDBMap (yData s)) d); try discriminate ST. injection ST as <-. exact H0.
  - injection ST as <-. exact H0.
  - injection ST as <-. exact H0.
Qed.
Print Assumptions C130_settled_partial.

(** A hundred data, two sources that hold as many. *)
Definition hundred : dbmap := stock 100000 (map N.of_nat (seq 0 100)).
Definition s_hundred : sync := mkSync (dt_s (cfg_s 200 false) 100 hundred [A1; B1]) [].
Definition es_hundred : list yev :=
  [YInsert 990 (Some D1) (Some (mkInsertConfig 5000 1)); YProcess (pe [A1; B1] 100 hundred) true;
   YInsert 1001 (Some D1) (Some (mkInsertConfig 5000 1))].
Example C130_instance : exists s', pow2_ok mathlib_ex /\ ySenders s_hundred = [] /\
  every mathlib_ex 0 (all_agree 100) s_hundred es_hundred /\
  sync_run mathlib_ex 0 s_hundred es_hundred = Some s' /\ length (ySenders s') = 1%nat /\ dN (yData s') = 100 /\
  blen (store s') = 100.
Proof.
  assert (E : exists s', sync_run mathlib_ex 0 s_hundred es_hundred = Some s' /\ length (ySenders s') = 1%nat /\
    dN (yData s') = 100 /\ blen (store s') = 100).
  { eexists. split; [vm_compute; reflexivity|]. repeat split; reflexivity. }
  destruct E as (s' & E1 & E2 & E3 & E4). exists s'. split; [exact mathlib_ex_ok|]. split; [reflexivity|].
  split; [|repeat split; assumption]. clear.
  unfold es_hundred. cbn [every]. split; [exact Logic.I|].
  destruct (sync_step mathlib_ex 0 s_hundred (YInsert 990 (Some D1) (Some (mkInsertConfig 5000 1)))) as [s1|] eqn:S1; [|exact Logic.I].
  assert (X : dAlive (yData s1) = true /\ dN (yData s1) = 100 /\ dAvg (yData s1) = [] /\ dHist (yData s1) = [] /\
    dMaxDistance (yData s1) = fzero).
  { vm_compute in S1. injection S1 as <-. repeat split; reflexivity. }
  destruct X as (X1 & X2 & X3 & X4 & X5). split.
  - cbn [all_agree pe pItems pInfo]. rewrite X1, X2. split; [reflexivity|]. split; [lia|]. split.
    + unfold sensible. rewrite X3, X4, X5. repeat split; constructor.
    + split.
      * constructor; [intros [H|[]]; discriminate H|]. constructor; [intros []|constructor].
      * intros id i H. injection H as <-. unfold agrees. rewrite X2, X3, X4. repeat split; reflexivity.
  - destruct (sync_step _ _ s1 _) as [s2|]; [|exact Logic.I]. split; [exact Logic.I|].
    destruct (sync_step _ _ s2 _); exact Logic.I.
Qed.

(** C130 is false: a dataset of one datum whose only source agrees with it sends its
    datum to the source. *)
Theorem C130_small_refuted : exists M undef s es s', pow2_ok M /\ ySenders s = [] /\
  every M undef (all_agree 1) s es /\ every M undef range_ok s es /\ sync_run M undef s es = Some s' /\
  messages M undef s es = [Offered 0 A1 D1 true].
Proof.
  set (s := mkSync (dt_s (cfg_s 200 false) 1 (stock 100000 [1]) [A1]) []).
  exists mathlib_ex, 0, s, [YProcess (pe [A1] 1 (stock 100000 [1])) false; YSend 0 (STake [A1]); YSend 0 (SOffer true)].
  eexists. split; [exact mathlib_ex_ok|]. split; [reflexivity|]. split; [|split; [|split]].
  - cbn [every]. split.
    + cbn [all_agree s yData dt_s dAlive dN pe pItems pInfo]. split; [reflexivity|]. split; [lia|]. split.
      * unfold sensible. cbn. repeat split; constructor.
      * split; [constructor; [intros []|constructor]|]. intros id i H. injection H as <-. repeat split; reflexivity.
    + destruct (sync_step _ _ s _) as [s1|]; [|exact Logic.I]. split; [exact Logic.I|].
      destruct (sync_step _ _ s1 _) as [s2|]; [|exact Logic.I]. split; [exact Logic.I|].
      destruct (sync_step _ _ s2 _); exact Logic.I.
  - cbn [every]. split; [apply Permutation_refl|].
    destruct (sync_step _ _ s _) as [s1|]; [|exact Logic.I]. split; [exact Logic.I|].
    destruct (sync_step _ _ s1 _) as [s2|]; [|exact Logic.I]. split; [exact Logic.I|].
    destruct (sync_step _ _ s2 _); exact Logic.I.
  - vm_compute. reflexivity.
  - vm_compute. reflexivity.
Qed.
Print Assumptions C130_small_refuted.

(** The four kinds of sources of a dataset of 200 data: alike and with as many; alike
    and with more; alike with few; not alike with few. *)
Definition far_info (n : N) : DataInfo := mkDataInfo (bs "x") 0 0 [S754_finite false 1 0] [] n fzero 2 half false 0 false 0.
Example C130_instance_exact : exists dt' r,
  let P := mkPenv 1000 1000 1000 [A1; B1; bs "c"; bs "d"]
    (fun id => Some (if bytes_eqb id A1 then info_s 200 else if bytes_eqb id B1 then info_s 300
                     else if bytes_eqb id (bs "c") then info_s 20 else far_info 20))
    (stock 100000 [1]) (fun _ => 1000%Z) (fun _ => 1000) (fun _ => fzero) 0 in
  let dt := mkData (Some (cfg_s 9 false)) [S754_zero false] 200 fzero [] 0 0 false (Some [A1]) true true 0 (stock 100000 [1]) 0 in
  Process mathlib_ex P dt true = Ok (dt', Some r) /\
  mload (rDiff r) A1 = Some 0 /\ mload (rDiff r) B1 = Some 1 /\ mload (rDiff r) (bs "c") = Some 1 /\
  mload (rDiff r) (bs "d") = Some 91.
Proof. eexists. eexists. cbv zeta. split; [vm_compute; reflexivity|]. repeat split; vm_compute; reflexivity. Qed.
