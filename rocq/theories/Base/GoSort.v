(** sort.Slice of the Go standard library, as a contract: the result is a
    permutation, and if the comparison is a strict weak order on the elements it
    is sorted.  (For any other comparison nothing but the permutation is
    promised.)  An instance shows that the contract can be met. *)
From Verif.Base Require Import GoBase.
From Coq Require Export Permutation Sorting.Sorted.

Section Order.
Context {A : Type}.
Variable less : A -> A -> bool.

(** less is a strict weak order on the elements that satisfy P. *)
Record swo (P : A -> Prop) : Prop := mkSwo {
  swo_irr : forall x, P x -> less x x = false;
  swo_trans : forall x y z, P x -> P y -> P z ->
    less x y = true -> less y z = true -> less x z = true;
  swo_neg : forall x y z, P x -> P y -> P z ->
    less x y = false -> less y z = false -> less x z = false }.

(** Sorted: no later element is less than an earlier one. *)
Definition sorted (l : list A) : Prop := StronglySorted (fun a b => less b a = false) l.
End Order.

Record go_sort := mkSort {
  sort_run : forall A : Type, (A -> A -> bool) -> list A -> list A;
  sort_perm : forall A (less : A -> A -> bool) l, Permutation l (sort_run A less l);
  sort_sorted : forall A (less : A -> A -> bool) l,
    swo less (fun x => In x l) -> sorted less (sort_run A less l) }.
Arguments sort_run g {A} less l.

(** Insertion sort. *)
Section Ins.
Context {A : Type}.
Variable less : A -> A -> bool.

Fixpoint ins (x : A) (l : list A) : list A :=
  match l with
  | [] => [x]
  | y :: l' => if less y x then y :: ins x l' else x :: y :: l'
  end.

Fixpoint isort (l : list A) : list A :=
  match l with [] => [] | x :: l' => ins x (isort l') end.

Lemma ins_perm : forall x l, Permutation (x :: l) (ins x l).
Proof.
  induction l as [|y l IH]; cbn; [reflexivity|].
  destruct (less y x); [|reflexivity].
  rewrite perm_swap. constructor. exact IH.
Qed.

Lemma isort_perm : forall l, Permutation l (isort l).
Proof.
  induction l as [|x l IH]; cbn; [constructor|].
  rewrite <- ins_perm. constructor. exact IH.
Qed.

Lemma ins_sorted : forall P x l, swo less P -> P x -> Forall P l ->
  sorted less l -> sorted less (ins x l).
Proof.
  intros P x l O Px. induction l as [|y l IH]; intros F S; cbn.
  - repeat constructor.
  - inversion F as [|? ? Py F']; subst. inversion S as [|? ? S' H]; subst.
    destruct (less y x) eqn:E.
    + constructor; [apply IH; auto|].
      rewrite Forall_forall in *. intros z Hz.
      apply (Permutation_in _ (Permutation_sym (ins_perm x l))) in Hz.
      destruct Hz as [<-|Hz]; auto.
      destruct (less x y) eqn:E2; auto.
      pose proof (swo_trans _ _ O x y x Px Py Px E2 E) as T.
      rewrite (swo_irr _ _ O x Px) in T. discriminate.
    + constructor; [constructor; auto|].
      constructor; auto. rewrite Forall_forall in *. intros z Hz.
      apply (swo_neg _ _ O z y x); auto.
Qed.

Lemma isort_sorted : forall P l, swo less P -> Forall P l -> sorted less (isort l).
Proof.
  intros P l O. induction l as [|x l IH]; intro F; cbn; [constructor|].
  inversion F; subst. eapply ins_sorted; eauto.
  rewrite Forall_forall in *. intros z Hz.
  apply H2. eapply Permutation_in; [symmetry; apply isort_perm|exact Hz].
Qed.
End Ins.

Definition insertion_sort : go_sort.
Proof.
  refine (mkSort (fun A less l => isort less l) _ _).
  - intros. apply isort_perm.
  - intros A less l O. apply (isort_sorted less (fun x => In x l)); auto.
    apply Forall_forall. auto.
Defined.
