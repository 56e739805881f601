(** JSON texts and their meaning (RFC 8259), independently of a parser.  Two things
    go beyond the RFC because readers differ on them: a half of a surrogate pair
    without the other half, and bytes that are not UTF-8, mean U+FFFD. *)
From Verif.Base Require Import GoBase.
From Verif.Model Require Import Json.
Open Scope N_scope.

Definition surrogate (r : N) : Prop := 55296 <= r <= 57343.

(** A code point and its encoding in UTF-8. *)
Inductive utf8 : N -> bytes -> Prop :=
| utf8_1 a : a < 128 -> utf8 a [a]
| utf8_2 a b : 128 <= a * 64 + b < 2048 -> b < 64 -> utf8 (a * 64 + b) [192 + a; 128 + b]
| utf8_3 a b c : 2048 <= a * 4096 + b * 64 + c < 65536 -> b < 64 -> c < 64 ->
    ~ surrogate (a * 4096 + b * 64 + c) ->
    utf8 (a * 4096 + b * 64 + c) [224 + a; 128 + b; 128 + c]
| utf8_4 a b c d : 65536 <= a * 262144 + b * 4096 + c * 64 + d < 1114112 ->
    b < 64 -> c < 64 -> d < 64 ->
    utf8 (a * 262144 + b * 4096 + c * 64 + d) [240 + a; 128 + b; 128 + c; 128 + d].

(** A hexadecimal digit and its value, and four of them. *)
Definition hex (c n : N) : Prop :=
  (48 <= c <= 57 /\ n = c - 48) \/ (97 <= c <= 102 /\ n = c - 87) \/ (65 <= c <= 70 /\ n = c - 55).
Definition unit4 (u : bytes) (r : N) : Prop :=
  exists a b c d x y z w, u = [a; b; c; d] /\ hex a x /\ hex b y /\ hex c z /\ hex d w /\
    r = x * 4096 + y * 256 + z * 16 + w.

(** The characters after a backslash, other than u. *)
Definition escapes : list (N * N) :=
  [(34, 34); (92, 92); (47, 47); (98, 8); (102, 12); (110, 10); (114, 13); (116, 9)].

(** U+FFFD *)
Definition fffd : bytes := [239; 191; 189].

(** [s] begins with the second half of the pair that [r] begins. *)
Definition second_half (r : N) (s : bytes) : Prop :=
  r <= 56319 /\ exists u r2 t, s = 92 :: 117 :: u ++ t /\ unit4 u r2 /\ 56320 <= r2 <= 57343.

(** What stands between the quotes, and what it means. *)
Inductive chars : bytes -> bytes -> Prop :=
| c_nil : chars [] []
| c_plain r e s v : utf8 r e -> 32 <= r -> r <> 34 -> r <> 92 -> chars s v -> chars (e ++ s) (e ++ v)
| c_esc c b s v : In (c, b) escapes -> chars s v -> chars (92 :: c :: s) (b :: v)
| c_unit u r e s v : unit4 u r -> utf8 r e -> chars s v -> chars (92 :: 117 :: u ++ s) (e ++ v)
| c_pair u1 r1 u2 r2 e s v : unit4 u1 r1 -> 55296 <= r1 <= 56319 -> unit4 u2 r2 -> 56320 <= r2 <= 57343 ->
    utf8 (65536 + (r1 - 55296) * 1024 + (r2 - 56320)) e -> chars s v ->
    chars (92 :: 117 :: u1 ++ 92 :: 117 :: u2 ++ s) (e ++ v)
| c_lone u r s v : unit4 u r -> surrogate r -> ~ second_half r s -> chars s v ->
    chars (92 :: 117 :: u ++ s) (fffd ++ v)
| c_bad b s v : 128 <= b -> (forall r e t, utf8 r e -> b :: s <> e ++ t) -> chars s v ->
    chars (b :: s) (fffd ++ v).

Definition digit (b : N) : Prop := 48 <= b <= 57.
Definition some_digits (s : bytes) : Prop := s <> [] /\ Forall digit s.

Definition number (t : bytes) : Prop := exists sg i f e, t = sg ++ i ++ f ++ e /\
  (sg = [] \/ sg = [45]) /\
  (i = [48] \/ exists d ds, i = d :: ds /\ 49 <= d <= 57 /\ Forall digit ds) /\
  (f = [] \/ exists ds, f = 46 :: ds /\ some_digits ds) /\
  (e = [] \/ exists x s ds, e = x :: s ++ ds /\ (x = 101 \/ x = 69) /\ (s = [] \/ s = [43] \/ s = [45]) /\ some_digits ds).

(** Space, tab, newline, carriage return. *)
Definition blanks (w : bytes) : Prop := Forall (fun b => In b [32; 9; 10; 13]) w.

Inductive value : bytes -> json -> Prop :=
| v_null : value (bs "null") JNull
| v_true : value (bs "true") (JBool true)
| v_false : value (bs "false") (JBool false)
| v_num t : number t -> value t (JNum t)
| v_str s v : chars s v -> value (34 :: s ++ [34]) (JStr v)
| v_arr0 w : blanks w -> value (91 :: w ++ [93]) (JArr [])
| v_arr s l : elements s l -> value (91 :: s ++ [93]) (JArr l)
| v_obj0 w : blanks w -> value (123 :: w ++ [125]) (JObj [])
| v_obj s l : members s l -> value (123 :: s ++ [125]) (JObj l)
with elements : bytes -> list json -> Prop :=
| e_one w1 s v w2 : blanks w1 -> value s v -> blanks w2 -> elements (w1 ++ s ++ w2) [v]
| e_more w1 s v w2 s' l : blanks w1 -> value s v -> blanks w2 -> elements s' l ->
    elements (w1 ++ s ++ w2 ++ 44 :: s') (v :: l)
with members : bytes -> list (bytes * json) -> Prop :=
| m_one w1 q k w2 w3 s v w4 : blanks w1 -> chars q k -> blanks w2 -> blanks w3 -> value s v -> blanks w4 ->
    members (w1 ++ 34 :: q ++ 34 :: w2 ++ 58 :: w3 ++ s ++ w4) [(k, v)]
| m_more w1 q k w2 w3 s v w4 s' l : blanks w1 -> chars q k -> blanks w2 -> blanks w3 -> value s v -> blanks w4 ->
    members s' l ->
    members (w1 ++ 34 :: q ++ 34 :: w2 ++ 58 :: w3 ++ s ++ w4 ++ 44 :: s') ((k, v) :: l).

(** A whole text. *)
Definition document (t : bytes) (v : json) : Prop :=
  exists w1 s w2, t = w1 ++ s ++ w2 /\ blanks w1 /\ value s v /\ blanks w2.
