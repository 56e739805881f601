(** The background task of a dataset (Data.Run, data/data.go 145-168). *)
From Verif.Base Require Import GoBase.

(** Where a call of Run is: about to load Runs (line 146), past the check and about
    to add 1 (line 150), in its loop, finished (the deferred add of -1 included,
    line 151) or refused (line 148).
    data/data.go 145-168. *)
Inductive runner := RStart | RChecked | RActive | RDone | RRefused.

(** Runs and the calls.  Left out: the wrap-around of Runs at 2^31 calls; the loop
    (Model/Sync.v) ends at any time.
    data/data.go 145-168. *)
Inductive runner_step : Z * list runner -> Z * list runner -> Prop :=
| rs_call : forall r ts, runner_step (r, ts) (r, ts ++ [RStart])
| rs_check : forall r ts i ts',
    nth_error ts i = Some RStart -> (r < 1)%Z -> list_set ts i RChecked = Some ts' ->
    runner_step (r, ts) (r, ts')
| rs_refuse : forall r ts i ts',
    nth_error ts i = Some RStart -> (1 <= r)%Z -> list_set ts i RRefused = Some ts' ->
    runner_step (r, ts) (r, ts')
| rs_add : forall r ts i ts',
    nth_error ts i = Some RChecked -> list_set ts i RActive = Some ts' ->
    runner_step (r, ts) (r + 1, ts')%Z
| rs_end : forall r ts i ts',
    nth_error ts i = Some RActive -> list_set ts i RDone = Some ts' ->
    runner_step (r, ts) (r - 1, ts')%Z.

(** Any interleaving of calls of data/data.go 145-168. *)
Inductive runner_run : Z * list runner -> Z * list runner -> Prop :=
| rr_here : forall x, runner_run x x
| rr_step : forall x y z, runner_run x y -> runner_step y z -> runner_run x z.

(** Executions in which no call looks at Runs while another one is between its
    check and its add.
    data/data.go 146-150. *)
Inductive solo_run : Z * list runner -> Z * list runner -> Prop :=
| sr_here : forall x, solo_run x x
| sr_step : forall x r ts z, solo_run x (r, ts) -> runner_step (r, ts) z ->
    (In RChecked ts -> exists i ts', nth_error ts i = Some RChecked /\
       list_set ts i RActive = Some ts' /\ z = (r + 1, ts')%Z) ->
    solo_run x z.
