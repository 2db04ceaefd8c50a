(** citrine/storage/transaction.py and the transactional part of a connection, for any stored state [S] *)
From Verif Require Import Base Value.
Set Implicit Arguments.

(** A connection with its transaction manager. [n_work] is the in-memory state, [n_saved] the last committed state,
    [n_past] the committed states before it (newest first); a crash or a reopening leaves [n_saved].
    [n_auto] is [transaction_manager.autocommit], [n_flag] is the connection's own [___autocommit___],
    [n_failed] says that the current transaction of the ZODB package is in its failed state,
    [n_calls] counts the calls of [commit] so far. *)
Record conn (S : Type) := mkConn {
  n_work : S; n_saved : S; n_past : list S; n_auto : bool; n_flag : pyval; n_failed : bool; n_calls : nat }.

(** all states ever committed, newest first *)
Definition history {S} (c : conn S) : list S := n_saved c :: n_past c.

Definition put {S} (k : S) (c : conn S) : conn S :=
  mkConn k (n_saved c) (n_past c) (n_auto c) (n_flag c) (n_failed c) (n_calls c).
Definition set_auto {S} (b : bool) (c : conn S) : conn S :=
  mkConn (n_work c) (n_saved c) (n_past c) b (n_flag c) (n_failed c) (n_calls c).

(** [abort()] / [begin()] of the transaction package (external): pending changes are discarded *)
Definition tm_abort {S} (c : conn S) : conn S :=
  mkConn (n_saved c) (n_saved c) (n_past c) (n_auto c) (n_flag c) false (n_calls c).
(** [commit()] of the transaction package (external). [b n] says what the n-th commit does: [None] succeeds,
    [Some e] fails with [e] (a conflict, a full disk), which discards the changes and leaves the transaction failed. *)
Definition tm_commit {S} (b : nat -> option exn) (c : conn S) : conn S * res unit :=
  if n_failed c then (c, Err TransactionFailedError)
  else match b (n_calls c) with
       | None => (mkConn (n_work c) (n_work c) (history c) (n_auto c) (n_flag c) false (Nat.succ (n_calls c)), Ok tt)
       | Some e => (mkConn (n_saved c) (n_saved c) (n_past c) (n_auto c) (n_flag c) true (Nat.succ (n_calls c)), Err e)
       end.

(** transaction.py:24-28 and 53-57 [__enter__] *)
Definition tm_enter {S} (c : conn S) : conn S := set_auto false (tm_abort c).
(** transaction.py:30-38 and 59-67 [__exit__]; it returns None, so an exception of the body propagates *)
Definition tm_exit {S A} (b : nat -> option exn) (r : res A) (c : conn S) : conn S * res A :=
  match r with
  | Ok _ => match tm_commit b c with
            | (c1, Ok _) => (set_auto true c1, r)
            | (c1, Err e) => (c1, Err e)
            end
  | Err e => (set_auto true (tm_abort c), Err e)
  end.
(** transaction.py:70-89 [autocommit] (the logging calls have no effect) *)
Definition autocommitted {S A} (b : nat -> option exn) (fn : conn S -> conn S * res A) (c : conn S) : conn S * res A :=
  if n_auto c then let (c1, r) := fn (tm_enter c) in tm_exit b r c1 else fn c.

(** container_connection.py:138-143 [autocommit] setter *)
Definition set_autocommit {S} (v : pyval) (c : conn S) : conn S * res unit :=
  match v with
  | VBool a => (mkConn (n_work c) (n_saved c) (n_past c) a v (n_failed c) (n_calls c), Ok tt)
  | _ => (c, Err TypeError)
  end.
(** container_connection.py:240-254 [__enter__] / [__exit__] *)
Definition conn_enter {S} (c : conn S) : conn S := tm_enter c.
Definition conn_exit {S A} (b : nat -> option exn) (r : res A) (c : conn S) : conn S * res A :=
  tm_exit b r (fst (set_autocommit (VBool true) c)).

(** What a program using a connection can do. [Do c k] performs the call [c] and goes on with [k r], where [r] is
    its result or the exception it raised (so catching exceptions, loops and conditions are covered); [Block body k]
    is [with conn: body], then [k]; [SetAuto] assigns [conn.autocommit]. [Done (Err e)] ends by raising [e]. *)
Inductive prog (C R : Type) : Type :=
| Done (r : res R)
| Do (c : C) (k : res R -> prog C R)
| SetAuto (v : pyval) (k : res unit -> prog C R)
| Block (body : prog C R) (k : res R -> prog C R).
Arguments Done {C R} r.
Arguments SetAuto {C R} v k.
Arguments Block {C R} body k.

(** The calls of a connection: [sem] is their effect on the stored state, [is_read] tells the undecorated ones. *)
Record calls (S C R : Type) := mkCalls { sem : C -> S -> S * res R; is_read : C -> bool }.

(** the undecorated method. Simplification: in a failed transaction every mutator raises, even one that would have
    changed nothing. *)
Definition perform {S C R} (cs : calls S C R) (cmd : C) (c : conn S) : conn S * res R :=
  if is_read cs cmd then (c, snd (sem cs cmd (n_work c)))
  else if n_failed c then (c, Err TransactionFailedError)
  else let (k, r) := sem cs cmd (n_work c) in (put k c, r).
Definition exec {S C R} (cs : calls S C R) (b : nat -> option exn) (cmd : C) (c : conn S) : conn S * res R :=
  if is_read cs cmd then perform cs cmd c else autocommitted b (perform cs cmd) c.

Fixpoint run {S C R} (cs : calls S C R) (b : nat -> option exn) (p : prog C R) (c : conn S) : conn S * res R :=
  match p with
  | Done r => (c, r)
  | Do cmd k => let (c1, r) := exec cs b cmd c in run cs b (k r) c1
  | SetAuto v k => let (c1, r) := set_autocommit v c in run cs b (k r) c1
  | Block body k =>
      let (c1, r) := run cs b body (conn_enter c) in
      let (c2, r2) := conn_exit b r c1 in
      run cs b (k r2) c2
  end.
