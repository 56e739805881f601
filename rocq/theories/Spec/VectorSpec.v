(** What is assumed of the mathematical library and what the score functions are
    expected to satisfy. *)
From Verif.Base Require Import GoBase Float.
From Verif.Model Require Import Vector.
Open Scope N_scope.

(** math32.Pow(x, 2): even, zero at zero, never negative. *)
Definition pow2_ok (M : mathlib) : Prop :=
  (forall x, pow2 M (SFopp x) = pow2 M x) /\
  (forall s, pow2 M (S754_zero s) = S754_zero false) /\
  (forall x, SFltb (pow2 M x) (S754_zero false) = false).

(** A finite number (neither infinite nor NaN). *)
Definition finite (x : float) : Prop :=
  match x with S754_zero _ | S754_finite _ _ _ => True | _ => False end.

(** The score functions by name, as documented. *)
Definition named (M : mathlib) : list (bytes * (list float -> list float -> float)) :=
  [ (bs "AnnoyVectorDistance", VectorDistance M);
    (bs "AnnoyCosineSimilarity", CosineSimilarity);
    (bs "VectorDistance", VectorDistance M);
    (bs "VectorMultiplication", VectorMultiplication);
    (bs "CosineSimilarity", CosineSimilarity);
    (bs "QuickVectorDistance", QuickVectorDistance);
    (bs "AngularDistance", AngularDistance M);
    (bs "AnnoyAngularDistance", AngularDistance M) ].

(** The number pi in binary64, from its decimal digits. *)
Definition decimal_pi : float := f64div (f64_of_Z 3141592653589793) (f64_of_Z 1000000000000000).

(** The numbers of the two formats. *)
Definition is_float32 (x : float) : Prop := valid_binary 24 128 x = true.
Definition is_float64 (x : float) : Prop := valid_binary 53 1024 x = true.

(** [x] lies between [lo] and [hi]. *)
Definition within (lo hi x : float) : Prop := SFleb lo x = true /\ SFleb x hi = true.

(** math.Acos: on [-1, 1] its values are numbers between 0 and pi, and it never
    increases. *)
Definition acos_ok (M : mathlib) : Prop :=
  (forall x, is_float64 x -> within (f64_of_Z (-1)) (f64_of_Z 1) x ->
     is_float64 (acos M x) /\ within (S754_zero false) decimal_pi (acos M x)) /\
  (forall x y, is_float64 x -> is_float64 y ->
     SFleb (f64_of_Z (-1)) x = true -> SFleb x y = true -> SFleb y (f64_of_Z 1) = true ->
     SFleb (acos M y) (acos M x) = true).

(** math32.Pow(x, 2) never decreases with the size of x. *)
Definition pow2_grows (M : mathlib) : Prop :=
  (forall x, is_float32 x -> is_nan x = false ->
     is_float32 (pow2 M x) /\ SFleb (S754_zero false) (pow2 M x) = true) /\
  (forall x y, is_float32 x -> is_float32 y -> SFleb (SFabs x) (SFabs y) = true ->
     SFleb (pow2 M x) (pow2 M y) = true).

(** The vector [a] is coordinate by coordinate at most as far from [q] as [b]. *)
Inductive nearer : list float -> list float -> list float -> Prop :=
| nearer_nil : nearer [] [] []
| nearer_cons : forall x y z a b q,
    SFleb (SFabs (f32sub x z)) (SFabs (f32sub y z)) = true ->
    nearer a b q -> nearer (x :: a) (y :: b) (z :: q).

(** A positive finite float64. *)
Definition positive64 (M : float) : Prop := is_float64 M /\ finite M /\ SFltb (S754_zero false) M = true.

(** A share between nothing and everything. *)
Definition share (u : float) : Prop := is_float64 u /\ within (S754_zero false) (f64_of_Z 1) u.
