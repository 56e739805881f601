(** Settings, written without the model's functions. *)
From Verif.Base Require Import GoBase.
From Verif.Model Require Import Node Settings.
From Verif.Spec Require Import NodeSpec.
Open Scope N_scope.

(** [a] is the first that is there. *)
Inductive first {A : Type} : list (option A) -> A -> Prop :=
| first_here : forall a l, first (Some a :: l) a
| first_next : forall a l, first l a -> first (None :: l) a.

(** A text counts if it is not empty. *)
Definition nonempty (o : option bytes) : option bytes := match o with Some [] => None | _ => o end.

(** Only texts count. *)
Definition text (o : option setting) : option bytes := match o with Some (Text s) => Some s | _ => None end.

(** The words of a text between commas. *)
Inductive words : bytes -> list bytes -> Prop :=
| words_one : forall x, ~ In comma x -> words x [x]
| words_more : forall x t l, ~ In comma x -> words t l -> words (x ++ comma :: t) (x :: l).

(** The items of a setting: none if it is empty. *)
Definition items (t : bytes) (l : list bytes) : Prop := (t = [] /\ l = []) \/ (t <> [] /\ words t l).

(** The text of an integer. *)
Definition integer_text (z : Z) (t : bytes) : Prop :=
  if (z <? 0)%Z then exists u, t = bs "-" ++ u /\ number_text (Z.to_N (- z)) u else number_text (Z.to_N z) t.

(** The configuration file of a command line: that of the flag, else that of the
    variable CONFIG, else that of VERICONFIG, else the one in the home folder; a file
    that cannot be read is empty. *)
Inductive reads (h : host) (f : flags) (m : settings) : Prop :=
| reads_path : forall p,
    first [nonempty (fConfig f); nonempty (hEnv h (bs "CONFIG")); nonempty (hEnv h (bs "VERICONFIG"))] p ->
    first [hFile h (AtPath p); Some (fun _ => None)] m -> reads h f m
| reads_home : forall home,
    nonempty (fConfig f) = None -> nonempty (hEnv h (bs "CONFIG")) = None ->
    nonempty (hEnv h (bs "VERICONFIG")) = None -> hHome h = Some home ->
    first [hFile h (InFolder (home ++ bs "/.veri")); Some (fun _ => None)] m -> reads h f m.
