(** Operations over all datasets of a node: DataConfigList and Dataset.Close,
    data/dataset.go 155-164 and 229-239. *)
From Verif.Base Require Import GoBase Assoc Float.
From Verif.Model Require Import Codec Store Data Dataset Json Index.
Open Scope N_scope.

Section All.
  Variable L : floatlib.
  Variable inc : Z -> Z -> Z -> Z.
  Variable closed : Data -> Data.

  (** The loop of DataConfigList, data/dataset.go 158-162: [names] are the keys of
      Items() in iteration order.  The error of Get is ignored; the clock does not
      advance during the loop.  A nil configuration is passed on. *)
  Fixpoint config_list (now : Z) (s : dstate) (names : list bytes) : res (dstate * list (option DataConfig)) :=
    match names with
    | [] => Ok (s, [])
    | k :: names' =>
        '(s1, a) <- Get inc deep now s k ;;
        match nth_error (dsObjs s1) a with
        | None => Panic
        | Some dt => '(s2, l) <- config_list now s1 names' ;; Ok (s2, dConfig dt :: l)
        end
    end.
  (** DataConfigList, data/dataset.go 155-164. *)
  Definition DataConfigList (now : Z) (s : dstate) (names : list bytes) := config_list now s names.

  (** The loop of Dataset.Close, data/dataset.go 232-237. *)
  Fixpoint close_each (now : Z) (s : dstate) (names : list bytes) : res dstate :=
    match names with
    | [] => Ok s
    | k :: names' =>
        '(s1, a) <- Get inc deep now s k ;; close_each now (close_obj closed s1 a) names'
    end.
  (** Dataset.Close, data/dataset.go 229-239: the index is saved (line 230, its
      iteration order [names1]), then every dataset is closed ([names2]).  The
      datasets stay in the list. *)
  Definition DatasetClose (now : Z) (s : dstate) (names1 names2 : list bytes) : res (dstate * bytes) :=
    '(s1, text) <- SaveIndex L inc now s names1 ;;
    s2 <- close_each now s1 names2 ;;
    Ok (s2, text).

  (** What happens to the registry of a node that runs: calls and the periodic
      task (node/node.go 322-330), which saves the index and checks the runs;
      DataConfigList is called for every peer record (node/node.go 173).  [names]
      and [items] are iteration orders of Items(). *)
  Inductive hevent :=
  | HSave (now : Z) (names : list bytes)
  | HList (now : Z) (names : list bytes)
  | HReload (now : Z) (info : bytes -> option N) (items : amap ditem)
  | HOther (e : devent).
  (** data/dataset.go 65-227. *)
  Definition hstep (s : dstate) (e : hevent) : res dstate :=
    match e with
    | HSave now names => r <- SaveIndex L inc now s names ;; Ok (fst r)
    | HList now names => r <- DataConfigList now s names ;; Ok (fst r)
    | HReload now info items => ReloadRuns closed info now s items
    | HOther e => dstep inc closed s e
    end.
End All.
