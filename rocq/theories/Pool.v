(** Connections that are closed and handed out again. citrine/database/containerdb.py:26-30, 383-389, citrine/connection/container_connection.py:138-170, 240-254.
    ZODB is outside the repository. What is used of it: [DB.open] hands out the connection that was closed last, if the pool has one, and otherwise makes a new one; it gives it the transaction manager it was called with
    and starts a transaction, but changes no attribute of ContainerConnection; [close] raises ConnectionStateError (and does nothing) if an object was changed in the current transaction, and otherwise puts
    the connection in the pool. *)
From Verif Require Import Base Value Container Txn Connection.
Open Scope list_scope.
Set Implicit Arguments.
Section Pool.
(** [busy]: the exception ConnectionStateError. [registers cmd k]: whether the call changes any stored object (even to an equal value) of the container [k] *)
Variables (busy : exn) (registers : ccmd -> container -> bool).

(** what a program does with the database: calls, [conn.autocommit = a], entering and leaving [with conn:], reading [conn.autocommit], and closing the connection and opening one again.
    Simplifications: one connection at a time; a connection whose [close] raised is dropped by the program (as by leaving [with db as conn:]); a closed connection is not used. *)
Inductive pop := PCall (cmd : ccmd) | PAuto (a : bool) | PEnter | PExit (raises : bool) | PAsk | PAgain.
Inductive pout := OCall (r : res cres) | OExit (r : res unit) | OAsk (v : pyval) | OClose (r : res unit) | ONothing.
(** the connection in use ([n_flag]: its [___autocommit___]); whether the current transaction has changed an object; the [___autocommit___] of the connections in the pool, last closed first *)
Record pooled := mkPooled { p_conn : conn container; p_dirty : bool; p_idle : list pyval }.

(** container_connection.py:172-254 (the calls), transaction.py:24-38, 53-89. The transaction ends, and nothing is changed in it any more, with every abort and every commit *)
Definition p_call (b : nat -> option exn) (cmd : ccmd) (p : pooled) : pooled * res cres :=
  let c := p_conn p in
  let (c1, r) := exec conn_calls b cmd c in
  let d := if conn_is_read cmd then p_dirty p
           else if n_auto c then false
           else p_dirty p || (negb (n_failed c) && registers cmd (n_work c)) in
  (mkPooled c1 d (p_idle p), r).
Definition p_exit (b : nat -> option exn) (raises : bool) (p : pooled) : pooled * res unit :=
  let (c1, r) := conn_exit b (if raises then Err (UserError 0) else Ok tt) (p_conn p) in (mkPooled c1 false (p_idle p), r).
(** [conn.close(); conn = db.open()]: containerdb.py:26-30 gives it a new ThreadTransactionManager, whose autocommit is on (transaction.py:47-51); container_connection.py:153-158 for a new one *)
Definition p_again (p : pooled) : pooled * res unit :=
  let (idle, r) := if p_dirty p then (p_idle p, Err busy) else (n_flag (p_conn p) :: p_idle p, Ok tt) in
  match idle with
  | flag :: rest => (mkPooled (reopen flag (p_conn p)) false rest, r)
  | [] => (mkPooled (reopen (VBool true) (p_conn p)) false [], r)
  end.
Definition p_step (b : nat -> option exn) (o : pop) (p : pooled) : pooled * pout :=
  match o with
  | PCall cmd => let (p1, r) := p_call b cmd p in (p1, OCall r)
  | PAuto a => (mkPooled (fst (set_autocommit (VBool a) (p_conn p))) (p_dirty p) (p_idle p), ONothing)
  | PEnter => (mkPooled (conn_enter (p_conn p)) false (p_idle p), ONothing)
  | PExit raises => let (p1, r) := p_exit b raises p in (p1, OExit r)
  | PAsk => (p, OAsk (n_flag (p_conn p)))
  | PAgain => let (p1, r) := p_again p in (p1, OClose r)
  end.
Fixpoint p_run (b : nat -> option exn) (ops : list pop) (p : pooled) : pooled * list pout :=
  match ops with [] => (p, []) | o :: ops' => let (p1, r) := p_step b o p in let (p2, rs) := p_run b ops' p1 in (p2, r :: rs) end.
(** [ContainerDb.new] (or opening), then [db.open()] on an empty pool *)
Definition p_first (k : container) : pooled := mkPooled (mkConn k k [] true (VBool true) false 0) false [].
End Pool.
