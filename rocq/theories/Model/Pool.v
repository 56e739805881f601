(** The connection pools of util/connpool.go.

    Connections are numbers (pointers); a pool holds a multiset of them (sync.Pool:
    Get returns any stored item or the result of New, items may be dropped at any
    time by the garbage collector).  The goburrow cache of pools is reduced to one
    address: a current pool that may be replaced at any time (eviction after 10
    minutes, refresh after 20, or size), whereupon the removal listener (lines
    25-29) closes the old one.  Counters are unbounded integers. *)
From Verif.Base Require Import GoBase Assoc.
Open Scope nat_scope.

(** connectivity.State.
    Read at util/connpool.go 143 and 165. *)
Inductive cstate := Idle | Connecting | Ready | TransientFailure | Shutdown.
(** util/connpool.go 165. *)
Definition is_ready (s : cstate) : bool := match s with Ready => true | _ => false end.
(** util/connpool.go 143. *)
Definition is_shutdown (s : cstate) : bool := match s with Shutdown => true | _ => false end.

(** Connection, util/connpool.go 87-91. *)
Record conn := mkConn { kCounter : Z; kState : cstate }.
(** ConnectionPool, util/connpool.go 82-85. *)
Record pool := mkPool { plItems : list nat; plClosed : bool }.

(** A goroutine that uses the pools (util/connpool.go):
    - [TTry p n]: GetWithRetry(n) of pool p, line 134;
    - [TGot p n c]: has taken c, line 143;
    - [TInc], [TLoad], [TPut]: Get, lines 125, 126, 127;
    - [THeld c]: ConnectionCache.Get has returned c;  [TNil]: it has returned nil;
    - [TDec c p], [THealth c p]: ConnectionCache.Put of c into pool p, lines 57 and
      58 (PutIfHealthy, 163-174);
    - [TClosing p]: CloseAll of p, line 186;  [TCloseAll p n]: n rounds of its loop
      to go, line 187;  [TClose p n c]: line 194;
    - [TDone]: finished. *)
Inductive tstate :=
| TTry (p n : nat)
| TGot (p n c : nat)
| TInc (p c : nat)
| TLoad (p c : nat)
| TPut (p c : nat)
| THeld (c : nat)
| TNil
| TDec (c p : nat)
| THealth (c p : nat)
| TClosing (p : nat)
| TCloseAll (p n : nat)
| TClose (p n c : nat)
| TDone.

(** util/connpool.go 16-18. *)
Record pools := mkPools { lConns : list conn; lPools : list pool; lCur : nat; lThreads : list tstate }.

(** Connection.Conn.Close, and a new counter.
    util/connpool.go 146, 168, 194. *)
Definition set_state (l : list conn) (c : nat) (st : cstate) : list conn :=
  match nth_error l c with
  | Some k => match list_set l c (mkConn (kCounter k) st) with Some l' => l' | None => l end
  | None => l
  end.
(** util/connpool.go 57 and 125. *)
Definition add_counter (l : list conn) (c : nat) (d : Z) : list conn :=
  match nth_error l c with
  | Some k => match list_set l c (mkConn (kCounter k + d) (kState k)) with Some l' => l' | None => l end
  | None => l
  end.
(** GetState, util/connpool.go 143 and 165. *)
Definition state_of (l : list conn) (c : nat) : cstate :=
  match nth_error l c with Some k => kState k | None => Shutdown end.
(** util/connpool.go 126. *)
Definition counter_of (l : list conn) (c : nat) : Z :=
  match nth_error l c with Some k => kCounter k | None => 0%Z end.

(** sync.Pool.Put.
    util/connpool.go 160 and 166. *)
Definition pool_put (l : list pool) (p c : nat) : list pool :=
  match nth_error l p with
  | Some q => match list_set l p (mkPool (c :: plItems q) (plClosed q)) with Some l' => l' | None => l end
  | None => l
  end.
(** sync.Pool.Get removes the item it returns, util/connpool.go 137 and 188. *)
Definition list_remove {A} (l : list A) (k : nat) : list A := firstn k l ++ skipn (S k) l.
(** Removing item k: sync.Pool.Get takes it, or the garbage collector does.
    util/connpool.go 137 and 188. *)
Definition pool_take (l : list pool) (p k : nat) : option (nat * list pool) :=
  match nth_error l p with
  | Some q =>
      match nth_error (plItems q) k with
      | Some c =>
          match list_set l p (mkPool (list_remove (plItems q) k) (plClosed q)) with
          | Some l' => Some (c, l')
          | None => None
          end
      | None => None
      end
  | None => None
  end.
(** util/connpool.go 100. *)
Definition pool_closed (l : list pool) (p : nat) : bool :=
  match nth_error l p with Some q => plClosed q | None => true end.
(** util/connpool.go 186. *)
Definition pool_close (l : list pool) (p : nat) : list pool :=
  match nth_error l p with
  | Some q => match list_set l p (mkPool (plItems q) true) with Some l' => l' | None => l end
  | None => l
  end.

(** One step of a goroutine.  [pick] chooses what sync.Pool.Get does: item number
    [pick] if there is one, New otherwise; [dial] says whether grpc.Dial succeeds
    (NewConnection, util/connpool.go 99-120).  GetWithRetry, Get, PutIfHealthy
    and CloseAll: util/connpool.go 122-203. *)
Definition tstep (s : pools) (pick : nat) (dial : bool) (t : tstate) : list conn * list pool * tstate :=
  let cs := lConns s in let ps := lPools s in
  match t with
  | TTry p n =>
      if 3 <? n then (cs, ps, TNil)
      else match pool_take ps p pick with
           | Some (c, ps') => (cs, ps', TGot p n c)
           | None =>
               if negb (pool_closed ps p) && dial
               then (cs ++ [mkConn 0 Idle], ps, TGot p n (length cs))
               else (cs, ps, TTry p (S n))
           end
  | TGot p n c => if is_shutdown (state_of cs c) then (cs, ps, TTry p (S n)) else (cs, ps, TInc p c)
  | TInc p c => (add_counter cs c 1, ps, TLoad p c)
  | TLoad p c => (cs, ps, if (counter_of cs c <=? 20)%Z then TPut p c else THeld c)
  | TPut p c => (cs, pool_put ps p c, THeld c)
  | TDec c p => (add_counter cs c (-1), ps, THealth c p)
  | THealth c p =>
      if is_ready (state_of cs c) then (cs, pool_put ps p c, TDone)
      else (set_state cs c Shutdown, ps, TDone)
  | TClosing p => (cs, pool_close ps p, TCloseAll p 1000)
  | TCloseAll p O => (cs, ps, TDone)
  | TCloseAll p (S n) =>
      match pool_take ps p pick with
      | Some (c, ps') => (cs, ps', TClose p n c)
      | None => (cs, ps, TCloseAll p n)
      end
  | TClose p n c => (set_state cs c Shutdown, ps, TCloseAll p n)
  | THeld _ | TNil | TDone => (cs, ps, t)
  end.

(** - [EGet]: a goroutine calls ConnectionCache.Get (util/connpool.go 45-52);
    - [EStep i pick dial]: goroutine i makes a step;
    - [EPut i]: goroutine i, which holds a connection, calls ConnectionCache.Put
      (util/connpool.go 54-61; all callers do so once, by defer: node/nodeservice.go 253-257,
      275-279, node/datasourceclient.go 35-39, 64-68, 82-87);
    - [EEvict]: the cache replaces the pool of the address;
    - [EDrop p k]: the garbage collector drops item k of pool p;
    - [EState c st]: connection c changes its state by itself (never to or from
      Shutdown). *)
Inductive plev :=
| EGet
| EStep (i pick : nat) (dial : bool)
| EPut (i : nat)
| EEvict
| EDrop (p k : nat)
| EState (c : nat) (st : cstate).

(** util/connpool.go 20-61. *)
Definition plstep (s : pools) (e : plev) : pools :=
  match e with
  | EGet => mkPools (lConns s) (lPools s) (lCur s) (lThreads s ++ [TTry (lCur s) 0])
  | EStep i pick dial =>
      match nth_error (lThreads s) i with
      | Some t =>
          let '(cs, ps, t') := tstep s pick dial t in
          match list_set (lThreads s) i t' with
          | Some ts => mkPools cs ps (lCur s) ts
          | None => s
          end
      | None => s
      end
  | EPut i =>
      match nth_error (lThreads s) i with
      | Some (THeld c) =>
          match list_set (lThreads s) i (TDec c (lCur s)) with
          | Some ts => mkPools (lConns s) (lPools s) (lCur s) ts
          | None => s
          end
      | _ => s
      end
  | EEvict =>
      mkPools (lConns s) (lPools s ++ [mkPool [] false]) (length (lPools s)) (lThreads s ++ [TClosing (lCur s)])
  | EDrop p k =>
      match pool_take (lPools s) p k with
      | Some (_, ps) => mkPools (lConns s) ps (lCur s) (lThreads s)
      | None => s
      end
  | EState c st =>
      if is_shutdown (state_of (lConns s) c) || is_shutdown st then s
      else mkPools (set_state (lConns s) c st) (lPools s) (lCur s) (lThreads s)
  end.

(** Any interleaving of the calls of util/connpool.go 45-203. *)
Fixpoint plrun (s : pools) (es : list plev) : pools :=
  match es with [] => s | e :: es' => plrun (plstep s e) es' end.

(** A new cache with the pool of an address just loaded.
    util/connpool.go 20-43 and 72-80. *)
Definition pools0 : pools := mkPools [] [mkPool [] false] 0 [].
