(** C120: index files that were written by hand or by other tools. *)
From Verif.Base Require Import GoBase GoLemmas Assoc Float.
From Verif.Model Require Import Codec Store Data Dataset Json Index.
From Verif.Spec Require Import Text JsonSpec HandSpec.
From Verif.Proof Require Import JsonP GrammarP DatasetP IndexP HandP FloatLibP.
From Verif.Props Require Import IndexProps.
Open Scope N_scope.

(** C120 The index file is JSON: a file that lists datasets as JSON objects, whoever wrote
    it and in whatever layout, is loaded with exactly these datasets. *)

(** Exactly the JSON texts (RFC 8259) can be read, and they are read as what they mean. *)
Theorem C120_text_partial : forall t v, parse t = Some v <-> document t v.
Proof. exact parse_iff. Qed.

(** A line makes a dataset exactly if it is a JSON object whose known members have the
    right types (or the value null); the last member of a name counts. *)
Theorem C120_line_partial : forall L t c, UnmarshalConfig L t = Some c <-> describes_text L t c.
Proof. exact unmarshal_iff. Qed.

(** Loading a file never fails; exactly the complete lines count, whatever stands in the
    others; of the lines with one name, the first with the highest version. *)
Theorem C120_load_partial : forall L inc now file xs rest cs,
  split_lines file xs rest -> described L (map (fun x => x ++ [10]) xs) cs ->
  exists s, LoadIndex L inc now file = Ok s /\
    forall n c, (exists a dt, dl_get now s n = Some a /\ nth_error (dsObjs s) a = Some dt /\ dConfig dt = Some c) <->
      best cs n c.
Proof.
  intros L inc now file xs rest cs SP D.
  destruct (load_iff L inc now _ cs (mkDS [] []) D empty_inv) as (s & E & I & F).
  exists s. split; [unfold LoadIndex; rewrite (split_read _ _ _ SP); exact E|].
  intros n c. specialize (F n). change (cfg now (mkDS [] []) n) with (@None DataConfig) in F.
  assert (X : (exists a dt, dl_get now s n = Some a /\ nth_error (dsObjs s) a = Some dt /\ dConfig dt = Some c) <-> cfg now s n = Some c).
  { unfold cfg. split.
    - intros (a & dt & -> & -> & Y). exact Y.
    - destruct (dl_get now s n) as [a|]; [|discriminate]. destruct (nth_error (dsObjs s) a) as [dt|] eqn:O; [|discriminate].
      intro Y. exists a, dt. auto. }
  rewrite X, F, best_fold by discriminate. unfold best. split.
  - intros [[Y _]|(l1 & l2 & A & B & _ & C1 & C2)]; [discriminate Y|]. exists l1, l2. auto.
  - intros (l1 & l2 & A & B & C1 & C2). right. exists l1, l2. repeat split; auto. discriminate.
Qed.

(** False for the last line if it does not end with a newline. *)
Definition unended : bytes := bs "{""name"":""a""}" ++ [10] ++ bs "{""name"":""b""}".
Theorem C120_unended_refuted : exists s,
  describes_text simple_lib (bs "{""name"":""b""}") (mkDataConfig (bs "b") 0 0 (S754_zero false) false 0 false 0) /\
  LoadIndex simple_lib fresh 9 unended = Ok s /\
  (exists a, dl_get 9 s (bs "a") = Some a) /\ dl_get 9 s (bs "b") = None.
Proof.
  eexists. split; [apply unmarshal_iff; vm_compute; reflexivity|]. split; [vm_compute; reflexivity|].
  split; [exists 0%nat; vm_compute; reflexivity|vm_compute; reflexivity].
Qed.

(** False for an object that is spread over several lines. *)
Definition spread_out : bytes := bs "{" ++ [10] ++ bs " ""name"": ""a""" ++ [10] ++ bs "}".
Theorem C120_layout_refuted : exists s,
  describes_text simple_lib spread_out (mkDataConfig (bs "a") 0 0 (S754_zero false) false 0 false 0) /\
  LoadIndex simple_lib fresh 9 (spread_out ++ [10]) = Ok s /\ dsList s = [].
Proof.
  eexists. split; [apply unmarshal_iff; vm_compute; reflexivity|]. split; vm_compute; reflexivity.
Qed.

(** Not only objects: a line with null makes a dataset without a name. *)
Theorem C120_null_refuted : exists s a, LoadIndex simple_lib fresh 9 (bs "null" ++ [10]) = Ok s /\
  dl_get 9 s [] = Some a.
Proof. eexists. exists 0%nat. split; vm_compute; reflexivity. Qed.

(** A file of another tool: spaces, escapes of all kinds, names in other case, unknown
    members, a repeated name with a higher version, a line with an error. *)
Definition other_tool : bytes :=
  bs " { ""NAME"" : ""a\/\ud83d\uDE00\b"" , ""version"" : 3, ""x"": [1, -2.5e+7, {}, [ ] , null, true] } " ++ [13; 10] ++
  bs "{""name"":""b"",""version"":1,""retention"":7}" ++ [10] ++
  bs "{""name"":""b"",""version"":2,""version"":null,""noTarget"":true}" ++ [10] ++
  bs "{""name"":""c"",""version"":-1}" ++ [10].
Definition other_name : bytes := [97; 47; 240; 159; 152; 128; 8].
Example C120_instance : exists s a b,
  LoadIndex simple_lib fresh 9 other_tool = Ok s /\
  dl_get 9 s other_name = Some a /\ option_map dConfig (nth_error (dsObjs s) a) = Some (Some (mkDataConfig other_name 3 0 (S754_zero false) false 0 false 0)) /\
  dl_get 9 s (bs "b") = Some b /\ option_map dConfig (nth_error (dsObjs s) b) = Some (Some (mkDataConfig (bs "b") 2 0 (S754_zero false) true 0 false 0)) /\
  dl_get 9 s (bs "c") = None.
Proof. eexists. exists 0%nat, 1%nat. split; [vm_compute; reflexivity|]. vm_compute. repeat split. Qed.

(** The hypotheses of C120_load_partial hold for every file. *)
Example C120_instance_load : forall L file, exists xs rest cs,
  split_lines file xs rest /\ described L (map (fun x => x ++ [10]) xs) cs.
Proof.
  intros L file. destruct (split_exists file) as (xs & rest & S).
  destruct (described_exists L (map (fun x => x ++ [10]) xs)) as (cs & D). eauto.
Qed.

Print Assumptions C120_text_partial.
Print Assumptions C120_line_partial.
Print Assumptions C120_load_partial.
Print Assumptions C120_unended_refuted.
Print Assumptions C120_layout_refuted.
Print Assumptions C120_null_refuted.
