(** Sessions on a ContainerConnection whose commits may fail, and the life of the databases of a group.
    citrine/connection/container_connection.py, citrine/storage/transaction.py, citrine/database/containerdb.py, citrine/connection/group_connection.py, composed from Txn.v, Connection.v, Db.v and GroupRead.v. *)
From Verif Require Import Base Value Group Container Txn Connection ConnHistory Db GroupRead.
Open Scope list_scope.
Set Implicit Arguments.

(** what a program sees of a session: what its calls return or raise, and how its [with conn:] blocks end *)
Inductive sout := SCall (r : res cres) | SExit (r : res unit).
(** one operation (Connection.v, Txn.v): container_connection.py:138-143, 172-254, transaction.py:24-89 *)
Definition s_hop (b : nat -> option exn) (o : hop) (c : conn container) : conn container * list sout :=
  match o with
  | HCall cmd => let (c1, r) := exec conn_calls b cmd c in (c1, [SCall r])
  | HAuto a => (fst (set_autocommit (VBool a) c), [])
  | HReopen f => (reopen f c, [])
  | HEnter => (conn_enter c, [])
  | HExit raises => let (c1, r) := conn_exit b (if raises then Err (UserError 0) else Ok tt) c in (c1, [SExit r])
  end.
Fixpoint s_hops (b : nat -> option exn) (ops : list hop) (c : conn container) : conn container * list sout :=
  match ops with
  | [] => (c, [])
  | o :: ops' => let (c1, r) := s_hop b o c in let (c2, rs) := s_hops b ops' c1 in (c2, r ++ rs)
  end.

(** The life of one database: it is made with [ContainerDb.new] (containerdb.py:252-376) in a file [l_file], used by the session [l_ops] of one connection, whose commits end as [l_commits] says,
    and closed or killed at the end of that session. *)
Record life := mkLife { l_clock : N; l_capacity : Z; l_truncate : bool; l_strict : bool; l_name : pystr; l_file : file; l_commits : nat -> option exn; l_ops : list hop }.
(** the connection after the session, and what the program saw; [None]: the database could not be made or opened *)
Definition live (l : life) : option (conn container * list sout) :=
  match db_new (l_clock l) (l_capacity l) (l_truncate l) (l_strict l) None (l_name l) (Ok tt) (Ok tt) (l_file l) with
  | (f, _, Ok _) => match db_open f with Ok c => Some (s_hops (l_commits l) (l_ops l) c) | Err _ => None end
  | (_, _, Err _) => None
  end.
(** the file then holds the last committed root *)
Definition left_file (l : life) : file :=
  match live l with Some (c, _) => Some (mkRoot (Some (n_saved c)) (rt_other (plain_db (fst (fst (db_new (l_clock l) (l_capacity l) (l_truncate l) (l_strict l) None (l_name l) (Ok tt) (Ok tt) (l_file l))))))) | None => None end.
(** group_connection.py:27-34, 80-85: a group opens one connection to each database and reads through it; container_connection.py:201-212 [read] is not decorated, so no commit is asked for *)
Definition through (f : file) : db := fun id =>
  match db_open f with
  | Err e => Err e
  | Ok c => match snd (exec conn_calls (fun _ => None) (CRead id VNone) c) with Ok (RVal v) => Ok v | Ok _ => Err OutOfModel | Err e => Err e end
  end.
