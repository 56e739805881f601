(** Specification vocabulary for the connection pools. *)
From Verif.Base Require Import GoBase Assoc.
From Verif.Model Require Import Pool.
Open Scope nat_scope.

(** The goroutine has been counted as a user of c and not yet been uncounted. *)
Definition uses (c : nat) (t : tstate) : bool :=
  match t with
  | TLoad _ d | TPut _ d | THeld d | TDec d _ => Nat.eqb d c
  | _ => false
  end.
Definition users (s : pools) (c : nat) : nat := length (filter (uses c) (lThreads s)).

(** The goroutine's Get has returned c and its Put has not begun. *)
Definition holds (c : nat) (t : tstate) : bool :=
  match t with THeld d => Nat.eqb d c | _ => false end.
Definition holders (s : pools) (c : nat) : nat := length (filter (holds c) (lThreads s)).

(** How often c is handed back in an execution. *)
Fixpoint releases (c : nat) (s : pools) (es : list plev) : nat :=
  match es with
  | [] => 0
  | e :: es' =>
      match e with
      | EPut i => match nth_error (lThreads s) i with
                  | Some (THeld d) => if Nat.eqb d c then 1 else 0
                  | _ => 0
                  end
      | _ => 0
      end + releases c (plstep s e) es'
  end.

(** The steps goroutine i makes in an execution. *)
Definition own_step (i : nat) (e : plev) : bool :=
  match e with EStep j _ _ => Nat.eqb i j | _ => false end.
Definition steps_of (i : nat) (es : list plev) : nat := length (filter (own_step i) es).

(** Connections are only handed back in state Ready, and no pool is evicted:
    when goroutine i looks at the state of c in PutIfHealthy it sees Ready. *)
Fixpoint calm (s : pools) (es : list plev) : Prop :=
  match es with
  | [] => True
  | e :: es' =>
      match e with
      | EStep i _ _ => match nth_error (lThreads s) i with
                       | Some (THealth c _) => state_of (lConns s) c = Ready
                       | _ => True
                       end
      | EEvict => False
      | _ => True
      end /\ calm (plstep s e) es'
  end.

(** c is still reachable by the program. *)
Definition mentions (c : nat) (t : tstate) : bool :=
  match t with
  | TGot _ _ d | TInc _ d | TLoad _ d | TPut _ d | THeld d | TDec d _ | THealth d _ | TClose _ _ d => Nat.eqb d c
  | _ => false
  end.
Definition reachable (s : pools) (c : nat) : Prop :=
  (exists p q, nth_error (lPools s) p = Some q /\ In c (plItems q)) \/
  (exists t, In t (lThreads s) /\ mentions c t = true).


(** The goroutine's Get has chosen c. *)
Definition chosen (c : nat) (t : tstate) : bool :=
  match t with
  | TInc _ d | TLoad _ d | TPut _ d | THeld d | TDec d _ | THealth d _ => Nat.eqb d c
  | _ => false
  end.

(** How often goroutine i takes something out of a pool for its Get. *)
Fixpoint attempts (i : nat) (s : pools) (es : list plev) : nat :=
  match es with
  | [] => 0
  | e :: es' =>
      match e with
      | EStep j _ _ =>
          if Nat.eqb i j then
            match nth_error (lThreads s) i with
            | Some (TTry _ n) => if n <=? 3 then 1 else 0
            | _ => 0
            end
          else 0
      | _ => 0
      end + attempts i (plstep s e) es'
  end.

(** The garbage collector drops nothing and no pool is evicted. *)
Definition undisturbed (e : plev) : Prop := match e with EDrop _ _ | EEvict => False | _ => True end.
