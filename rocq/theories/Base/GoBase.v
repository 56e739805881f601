(** Go base semantics shared by all model files: machine integers, byte
    strings, outcomes of calls.  The definitions of this file model the Go
    language (Go specification, "Integer overflow", "Conversions", "Run-time
    panics"), not a particular file of /repo. *)
From Coq Require Export Ascii String.
From Coq Require Export List NArith ZArith Bool Lia ZifyN ZifyNat ZifyBool.
Export ListNotations.

Open Scope N_scope.

(** ** Machine integers *)

(** uint8, uint32, uint64 are [N]; results of arithmetic are reduced. *)
Definition M8  : N := 256.
Definition M32 : N := 4294967296.
Definition M63 : N := 9223372036854775808.
Definition M64 : N := 18446744073709551616.
Definition u8  (x : N) : N := x mod M8.
Definition u32 (x : N) : N := x mod M32.
Definition u64 (x : N) : N := x mod M64.

(** uint64 subtraction wraps around. *)
Definition sub64 (x y : N) : N := (x + (M64 - y mod M64)) mod M64.

(** int64 is [Z]; two's complement wrap. *)
Definition i64 (z : Z) : Z :=
  ((z + 9223372036854775808) mod 18446744073709551616 - 9223372036854775808)%Z.

(** Conversions int64(x) and uint64(x) between the 64-bit types. *)
Definition i64_of_u64 (n : N) : Z := i64 (Z.of_N n).
Definition u64_of_i64 (z : Z) : N := Z.to_N (z mod 18446744073709551616).

Definition is_u64 (n : N) : Prop := n < M64.
Definition is_u32 (n : N) : Prop := n < M32.
Definition is_byte (n : N) : Prop := n < M8.
Definition is_i64 (z : Z) : Prop :=
  (-9223372036854775808 <= z < 9223372036854775808)%Z.

(** ** Byte strings *)

(** Go strings and []byte: lists of bytes. *)
Definition bytes := list N.

Definition is_bytes (b : bytes) : Prop := Forall is_byte b.

Fixpoint bytes_eqb (a b : bytes) : bool :=
  match a, b with
  | [], [] => true
  | x :: a', y :: b' => N.eqb x y && bytes_eqb a' b'
  | _, _ => false
  end.

(** len(b) as an unsigned 64-bit number *)
Definition blen {A} (b : list A) : N := N.of_nat (length b).

(** ** Outcomes of calls *)

(** Error values are represented by their message. *)
Definition err := bytes.

(** A Go call returns normally, returns a non-nil error, or panics.  A loop
    whose fuel is exhausted also gives [Panic]; the theorems that state [Ok]
    exclude both. *)
Inductive res (A : Type) : Type :=
| Ok (a : A)
| Err (e : err)
| Panic.
Arguments Ok {A} a.
Arguments Err {A} e.
Arguments Panic {A}.

Definition bind {A B} (r : res A) (f : A -> res B) : res B :=
  match r with
  | Ok a => f a
  | Err e => Err e
  | Panic => Panic
  end.

Notation "x <- e ;; k" := (bind e (fun x => k))
  (at level 61, e at next level, right associativity).
Notation "' p <- e ;; k" := (bind e (fun p => k))
  (at level 61, p pattern, e at next level, right associativity).

(** Writing a list element at an index; [None] if out of range. *)
Fixpoint list_set {A} (l : list A) (i : nat) (x : A) : option (list A) :=
  match l, i with
  | [], _ => None
  | _ :: l', O => Some (x :: l')
  | y :: l', S i' =>
      match list_set l' i' x with
      | Some l'' => Some (y :: l'')
      | None => None
      end
  end.

(** A byte string written as a Coq string (for examples). *)
Fixpoint bs (s : string) : bytes :=
  match s with
  | EmptyString => []
  | String c s' => N_of_ascii c :: bs s'
  end.
Arguments bs s%string_scope.
