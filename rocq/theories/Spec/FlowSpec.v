(** Vocabulary for concurrent runs. *)
From Verif.Base Require Import GoBase.
From Verif.Model Require Import Flow.

(** [m] is an interleaving of the lists of [ls]: each list is consumed from its
    front, one element at a time. *)
Inductive interleaving {X} : list (list X) -> list X -> Prop :=
| il_nil ls : Forall (fun l => l = []) ls -> interleaving ls []
| il_cons ls1 x l ls2 m :
    interleaving (ls1 ++ l :: ls2) m -> interleaving (ls1 ++ (x :: l) :: ls2) (x :: m).

(** Every goroutine of the search has finished. *)
Definition all_finished {X} (s : flow X) : Prop :=
  Forall (fun p => pDone p = true) (fProds s) /\ fWaiter s = WClosed /\
  exists e, fCons s = CEnd e.

(** No goroutine can move; only the timer may still fire. *)
Definition stuck {X} (s : flow X) : Prop :=
  forall o, flow_step s o -> exists s', o = Next s' /\ fTimer s = false /\ fTimer s' = true.

(** Every run from s is finite. *)
Definition no_infinite_run {X} (s : flow X) : Prop :=
  Acc (fun s2 s1 => flow_step s1 (Next s2)) s.
